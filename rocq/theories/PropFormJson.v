(** C109: form bodies described by JSON. *)
From Coq Require Import Ascii String List Arith NArith ZArith Lia Bool.
From Verif Require Import Base PathExp Json Text TextProofs MatchingRules Expr Generators RuleExpr Integration SpecIntegration PropIntegration FormJson SpecFormJson PropForm.
Import ListNotations.
Open Scope N_scope.

Lemma begins_iff : forall a s, begins_with a s = true <-> exists b, s = a ++ b.
Proof.
  induction a as [|x a IH]; intro s; cbn.
  - split; [intros _; exists s; reflexivity | reflexivity].
  - destruct s as [|y s]; [split; [discriminate | intros (b & Z); discriminate]|]. rewrite andb_true_iff, N.eqb_eq, IH. split.
    + intros [-> (b & ->)]. exists b. reflexivity.
    + intros (b & Z). injection Z as -> ->. split; [reflexivity | exists b; reflexivity].
Qed.
Lemma contains_iff : forall q s, contains q s = true <-> exists a b, s = a ++ q ++ b.
Proof.
  intros q. induction s as [|y s IH]; cbn [contains]; rewrite orb_true_iff, begins_iff.
  - split.
    + intros [(b & E)|Z]; [exists [], b; exact E | discriminate].
    + intros (a & b & E). left. symmetry in E. apply app_eq_nil in E as [-> E]. exists b. symmetry. exact E.
  - rewrite IH. split.
    + intros [(b & E)|(a & b & ->)]; [exists [], b; exact E | exists (y :: a), b; reflexivity].
    + intros ([|z a] & b & E); [left; exists b; exact E | right; injection E as -> E; exists a, b; exact E].
Qed.

(** ** Removing what belongs to a place *)
Lemma path_eqb_sym' : forall p q, path_eqb p q = path_eqb q p.
Proof. intros p q. unfold path_eqb. destruct (str_eqb_spec (path_expr p) (path_expr q)) as [E|E], (str_eqb_spec (path_expr q) (path_expr p)); congruence. Qed.
Lemma remove_get : forall A k p (m : list (docpath * A)), hm_get p (hm_remove k m) = if path_eqb p k then None else hm_get p m.
Proof.
  intros A k p. induction m as [|[q v] m IH]; cbn [hm_remove filter hm_get fst]; [destruct (path_eqb p k); reflexivity|].
  unfold hm_remove in IH. unfold path_eqb in *. destruct (str_eqb_spec (path_expr k) (path_expr q)) as [E|E]; cbn [negb hm_get].
  - rewrite IH. unfold path_eqb. destruct (str_eqb_spec (path_expr p) (path_expr k)) as [E2|E2]; [reflexivity|].
    destruct (str_eqb_spec (path_expr p) (path_expr q)); [congruence | reflexivity].
  - rewrite IH. unfold path_eqb. destruct (str_eqb_spec (path_expr p) (path_expr q)) as [E2|E2]; [|reflexivity].
    destruct (str_eqb_spec (path_expr p) (path_expr k)); [congruence | reflexivity].
Qed.
Definition rule_at (p : docpath) (st : store) := hm_get p (cat_rules (st_rules st)).
Lemma in_hm_get : forall A p (m : list (docpath * A)), hm_get p m <> None <-> exists k, In k (map fst m) /\ path_eqb p k = true.
Proof.
  intros A p. induction m as [|[q v] m IH]; cbn [hm_get map fst In].
  - split; [congruence | intros (k & [] & _)].
  - destruct (path_eqb p q) eqn:E.
    + split; [intros _; exists q; auto | discriminate].
    + rewrite IH. split; [intros (k & J & H); exists k; auto | intros (k & [<-|J] & H); [congruence | exists k; auto]].
Qed.
Definition drop_step (q : docpath) (st : store) (k : docpath) : store :=
  if contains (path_expr q) (path_expr k) then
    mkStore (mkCat (cat_name (st_rules st)) (hm_remove k (cat_rules (st_rules st)))) (cats_update GcBody (hm_remove k) (st_gens st))
  else st.
Lemma drop_many : forall q ks st, let st' := fold_left (drop_step q) ks st in
  cat_name (st_rules st') = cat_name (st_rules st) /\
  forall p, let gone := existsb (path_eqb p) ks && contains (path_expr q) (path_expr p) in
    rule_at p st' = (if gone then None else rule_at p st) /\
    generator_at GcBody (st_gens st') p = (if gone then None else generator_at GcBody (st_gens st) p) /\
    forall c, c <> GcBody -> generator_at c (st_gens st') p = generator_at c (st_gens st) p.
Proof.
  intros q. induction ks as [|k ks IH]; intro st; cbv zeta.
  - split; [reflexivity|]. intro p. cbn. auto.
  - cbn [fold_left]. destruct (IH (drop_step q st k)) as [H1 H2]. cbv zeta in H1, H2. split.
    + rewrite H1. unfold drop_step. destruct (contains _ _); reflexivity.
    + intro p. destruct (H2 p) as (A & B & C). rewrite A, B. cbn [existsb].
      assert (D : rule_at p (drop_step q st k) = (if path_eqb p k && contains (path_expr q) (path_expr p) then None else rule_at p st) /\
                  generator_at GcBody (st_gens (drop_step q st k)) p = (if path_eqb p k && contains (path_expr q) (path_expr p) then None else generator_at GcBody (st_gens st) p) /\
                  forall c, c <> GcBody -> generator_at c (st_gens (drop_step q st k)) p = generator_at c (st_gens st) p).
      { unfold drop_step. destruct (contains (path_expr q) (path_expr k)) eqn:CK.
        - split; [|split].
          + unfold rule_at. cbn [st_rules cat_rules]. rewrite remove_get. unfold path_eqb. destruct (str_eqb_spec (path_expr p) (path_expr k)) as [E|E]; [rewrite E, CK; reflexivity | reflexivity].
          + unfold generator_at. cbn [st_gens]. rewrite cats_update_get. replace (gcat_eqb GcBody GcBody) with true by reflexivity.
            destruct (cats_get GcBody (st_gens st)) as [m|]; [rewrite remove_get|].
            * unfold path_eqb. destruct (str_eqb_spec (path_expr p) (path_expr k)) as [E|E]; [rewrite E, CK; reflexivity | reflexivity].
            * cbn. destruct (path_eqb p k && _); reflexivity.
          + intros c NC. unfold generator_at. cbn [st_gens]. rewrite cats_update_get. destruct (gcat_eqb c GcBody) eqn:E; [apply gcat_eqb_eq in E; contradiction | reflexivity].
        - split; [|split; [|reflexivity]]; unfold path_eqb; destruct (str_eqb_spec (path_expr p) (path_expr k)) as [E|E]; try reflexivity; rewrite E, CK; reflexivity. }
      destruct D as (D1 & D2 & D3). rewrite D1, D2. split; [|split; [|intros c NC; rewrite (C c NC); apply D3, NC]].
      * destruct (path_eqb p k), (contains (path_expr q) (path_expr p)), (existsb (path_eqb p) ks); reflexivity.
      * destruct (path_eqb p k), (contains (path_expr q) (path_expr p)), (existsb (path_eqb p) ks); reflexivity.
Qed.
(** The effect of one place. *)
Definition drops (q p : docpath) : bool := contains (path_expr q) (path_expr p).
Lemma handle_spec : forall q st, let st' := handle_invalid q st in
  cat_name (st_rules st') = cat_name (st_rules st) /\
  forall p, rule_at p st' = (if drops q p then None else rule_at p st) /\
    generator_at GcBody (st_gens st') p = (if drops q p then match rule_at p st with Some _ => None | None => generator_at GcBody (st_gens st) p end else generator_at GcBody (st_gens st) p) /\
    forall c, c <> GcBody -> generator_at c (st_gens st') p = generator_at c (st_gens st) p.
Proof.
  intros q st. cbv zeta. unfold handle_invalid. change (fun st k => if contains (path_expr q) (path_expr k) then _ else st) with (drop_step q).
  destruct (drop_many q (map fst (cat_rules (st_rules st))) st) as [H1 H2]. cbv zeta in H1, H2. split; [exact H1|]. intro p. destruct (H2 p) as (A & B & C).
  split; [|split; [|exact C]].
  - rewrite A. unfold drops. destruct (contains (path_expr q) (path_expr p)); [|rewrite andb_false_r; reflexivity]. rewrite andb_true_r.
    destruct (existsb (path_eqb p) _) eqn:E; [reflexivity|]. destruct (rule_at p st) eqn:R; [|reflexivity]. exfalso.
    assert (rule_at p st <> None) as NE by congruence. apply in_hm_get in NE as (k & J & Q).
    assert (existsb (path_eqb p) (map fst (cat_rules (st_rules st))) = true) by (apply existsb_exists; exists k; auto). congruence.
  - rewrite B. unfold drops. destruct (contains (path_expr q) (path_expr p)); [|rewrite andb_false_r; reflexivity]. rewrite andb_true_r.
    destruct (existsb (path_eqb p) _) eqn:E.
    + apply existsb_exists in E as (k & J & Q). assert (rule_at p st <> None) as NE by (apply in_hm_get; exists k; auto). destruct (rule_at p st); [reflexivity | congruence].
    + destruct (rule_at p st) eqn:R; [|reflexivity]. exfalso.
      assert (rule_at p st <> None) as NE by congruence. apply in_hm_get in NE as (k & J & Q).
      assert (existsb (path_eqb p) (map fst (cat_rules (st_rules st))) = true) by (apply existsb_exists; exists k; auto). congruence.
Qed.
(** The effect of several. *)
Definition handled (qs : list docpath) (st : store) : store := fold_left (fun st q => handle_invalid q st) qs st.
Lemma handled_spec : forall qs st, let st' := handled qs st in
  cat_name (st_rules st') = cat_name (st_rules st) /\
  forall p, let d := existsb (fun q => drops q p) qs in
    rule_at p st' = (if d then None else rule_at p st) /\
    generator_at GcBody (st_gens st') p = (if d then match rule_at p st with Some _ => None | None => generator_at GcBody (st_gens st) p end else generator_at GcBody (st_gens st) p) /\
    forall c, c <> GcBody -> generator_at c (st_gens st') p = generator_at c (st_gens st) p.
Proof.
  induction qs as [|q qs IH]; intro st; cbv zeta; [split; [reflexivity|]; intro p; cbn; auto|]. unfold handled. cbn [fold_left]. fold (handled qs (handle_invalid q st)).
  destruct (IH (handle_invalid q st)) as [H1 H2]. cbv zeta in H1, H2. destruct (handle_spec q st) as [G1 G2]. cbv zeta in G1, G2. split; [congruence|]. intro p.
  destruct (H2 p) as (A & B & C). destruct (G2 p) as (A' & B' & C'). rewrite A, B, A', B'. cbn [existsb]. split; [|split].
  - destruct (drops q p), (existsb _ qs); reflexivity.
  - destruct (drops q p), (existsb _ qs), (rule_at p st); reflexivity.
  - intros c NC. rewrite (C c NC). apply C', NC.
Qed.

Section Form.
Variable w : world.
Variable junk : str -> nat.
(** ** The fields and the places left out *)
Lemma value_shown : forall v t, form_value w v = Some t <-> shown_as w v t.
Proof. intros v t. destruct v; cbn; (split; [intro Z; try discriminate; injection Z as <-; constructor | intro Z; inversion Z; subst; reflexivity]). Qed.
Lemma value_none : forall v, form_value w v = None <-> forall t, ~ shown_as w v t.
Proof.
  intro v. split.
  - intros E t H. apply value_shown in H. congruence.
  - intro H. destruct (form_value w v) as [t|] eqn:E; [|reflexivity]. apply value_shown in E. exfalso. exact (H t E).
Qed.
Lemma array_spec : forall key l i st, exists ts outs, items w l ts /\
  array_params w key i l st = (map (pair key) ts, handled outs st) /\
  forall q, In q outs <-> exists j v, nth_error l (N.to_nat j) = Some v /\ (forall t, ~ shown_as w v t) /\ q = push_index (join path_root key) (i + j).
Proof.
  intros key. induction l as [|v l IH]; intros i st.
  - exists [], []. split; [constructor|]. split; [reflexivity|]. intro q. split; [intros [] | intros (j & v & E & _)]. destruct (N.to_nat j); discriminate.
  - cbn [array_params]. destruct (form_value w v) as [t|] eqn:E.
    + destruct (IH (i + 1) st) as (ts & outs & I1 & I2 & I3). exists (t :: ts), outs. split; [constructor; [apply value_shown, E | exact I1]|]. rewrite I2. split; [reflexivity|].
      intro q. rewrite I3. split.
      * intros (j & u & H1 & H2 & ->). exists (j + 1), u. replace (N.to_nat (j + 1)) with (S (N.to_nat j)) by lia. split; [exact H1|]. split; [exact H2|]. f_equal. lia.
      * intros (j & u & H1 & H2 & ->). destruct (N.eq_dec j 0) as [->|NJ].
        -- cbn in H1. injection H1 as <-. exfalso. apply value_shown in E. exact (H2 t E).
        -- exists (j - 1), u. replace (N.to_nat j) with (S (N.to_nat (j - 1))) in H1 by lia. split; [exact H1|]. split; [exact H2|]. f_equal. lia.
    + destruct (IH (i + 1) (handle_invalid (push_index (join path_root key) i) st)) as (ts & outs & I1 & I2 & I3).
      exists ts, (push_index (join path_root key) i :: outs). pose proof (proj1 (value_none v) E) as NV. split; [apply is_other; assumption|]. split; [exact I2|].
      intro q. cbn [In]. rewrite I3. split.
      * intros [<-|(j & u & H1 & H2 & ->)].
        -- exists 0, v. split; [reflexivity|]. split; [exact NV|]. f_equal. lia.
        -- exists (j + 1), u. replace (N.to_nat (j + 1)) with (S (N.to_nat j)) by lia. split; [exact H1|]. split; [exact H2|]. f_equal. lia.
      * intros (j & u & H1 & H2 & ->). destruct (N.eq_dec j 0) as [->|NJ]; [left; f_equal; lia|]. right.
        exists (j - 1), u. replace (N.to_nat j) with (S (N.to_nat (j - 1))) in H1 by lia. split; [exact H1|]. split; [exact H2|]. f_equal. lia.
Qed.
Lemma handled_app : forall a b st, handled (a ++ b) st = handled b (handled a st).
Proof. intros a b st. unfold handled. apply fold_left_app. Qed.
Lemma object_spec : forall m st, exists l outs, fields w m l /\ object_params w m st = (l, handled outs st) /\ forall q, In q outs <-> left_out w (JObj m) q.
Proof.
  induction m as [|[k v] m IH]; intro st.
  - exists [], []. split; [constructor|]. split; [reflexivity|]. intro q. split; [intros [] | intro H; inversion H as [k v m' J|k vs m' i v J]; subst; destruct J].
  - cbn [object_params]. assert (LO : forall q, left_out w (JObj ((k, v) :: m)) q <-> left_out w (JObj [(k, v)]) q \/ left_out w (JObj m) q).
    { intro q. split.
      - intro H. inversion H as [k' v' m' J N1 N2|k' vs m' i v' J N1 N2]; subst.
        + destruct J as [J|J]; [left | right]; eapply lo_entry; try eassumption; left; exact J.
        + destruct J as [J|J]; [left | right]; eapply lo_item; try eassumption; left; exact J.
      - intros [H|H]; inversion H as [k' v' m' J N1 N2|k' vs m' i v' J N1 N2]; subst.
        + eapply lo_entry; try eassumption. destruct J as [J|[]]. left. exact J.
        + eapply lo_item; try eassumption. destruct J as [J|[]]. left. exact J.
        + eapply lo_entry; try eassumption. right. exact J.
        + eapply lo_item; try eassumption. right. exact J. }
    assert (HEAD : forall st, exists l1 outs1, (forall l, fields w m l -> fields w ((k, v) :: m) (l1 ++ l)) /\
      match form_value w v, v with Some t, _ => ([(k, t)], st) | None, JArr l => array_params w k 0 l st | None, _ => ([], handle_invalid (join path_root k) st) end = (l1, handled outs1 st) /\
      forall q, In q outs1 <-> left_out w (JObj [(k, v)]) q).
    { clear st. intro st. destruct (form_value w v) as [t|] eqn:E.
      - exists [(k, t)], []. apply value_shown in E. split; [intros l F; constructor; assumption|]. split; [reflexivity|]. intro q. split; [intros []|]. intro H.
        inversion H as [k' v' m' J N1 N2|k' vs m' i v' J N1 N2]; subst; destruct J as [J|[]]; injection J as -> ->; [exact (N1 t E) | inversion E].
      - pose proof (proj1 (value_none v) E) as NV. assert (OTHER : (forall vs, v <> JArr vs) -> exists l1 outs1, (forall l, fields w m l -> fields w ((k, v) :: m) (l1 ++ l)) /\
           ([] : list (str * str), handle_invalid (join path_root k) st) = (l1, handled outs1 st) /\ forall q, In q outs1 <-> left_out w (JObj [(k, v)]) q).
        { intro NA. exists [], [join path_root k]. split; [intros l F; apply fs_other; assumption|]. split; [reflexivity|]. intro q. cbn [In]. split.
          - intros [<-|[]]. eapply lo_entry; [left; reflexivity | exact NV | exact NA].
          - intro H. inversion H as [k' v' m' J N1 N2|k' vs m' i v' J N1 N2]; subst; destruct J as [J|[]]; injection J as -> ->; [left; reflexivity | exfalso; exact (NA vs eq_refl)]. }
        destruct v as [|b|n|s|vs|o]; try (apply OTHER; discriminate).
        destruct (array_spec k vs 0 st) as (ts & outs & I1 & I2 & I3). exists (map (pair k) ts), outs. split; [intros l F; constructor; assumption|]. split; [exact I2|].
        intro q. rewrite I3. split.
        + intros (j & u & H1 & H2 & ->). replace (0 + j) with j by lia. eapply lo_item; [left; reflexivity | exact H1 | exact H2].
        + intro H. inversion H as [k' v' m' J N1 N2|k' vs' m' i v' J N1 N2]; subst; destruct J as [J|[]]; injection J as -> <-.
          * exfalso. exact (N2 vs eq_refl).
          * exists i, v'. split; [exact N1|]. split; [exact N2|]. f_equal. }
    destruct (HEAD st) as (l1 & o1 & F1 & -> & O1). destruct (IH (handled o1 st)) as (l2 & o2 & F2 & E2 & O2). rewrite E2.
    exists (l1 ++ l2), (o1 ++ o2). split; [apply F1, F2|]. split; [rewrite handled_app; reflexivity|]. intro q. rewrite in_app_iff, O1, O2, LO. reflexivity.
Qed.
Lemma convert_spec : forall v st, exists l outs, form_of w v l /\ convert_params w v st = (l, handled outs st) /\ forall q, In q outs <-> left_out w v q.
Proof.
  intros v st. destruct v as [|b|n|s|vs|m]; try (exists [], []; split; [apply fo_other; discriminate|]; split; [reflexivity|]; intro q; split; [intros [] | intro H; inversion H]).
  destruct (object_spec m st) as (l & outs & F & E & O). exists l, outs. split; [constructor; exact F|]. auto.
Qed.
(** A form body described by JSON: the fields of the example, in order; the rules and generators written into the description
    except those of places whose path text has in it that of a value that cannot be written into a form. *)
Theorem C109_form_body : forall v st text st', process_form w junk (Some v) st = Ok (text, st') ->
  exists example occs rules, reading w junk exactly [] v example occs /\
    (exists l, form_of w example l /\ (Forall text_pair l -> forall lossy, form_parse lossy text = l)) /\
    rules_added path_root occs (st_rules st) rules /\ cat_name (st_rules st') = cat_name (st_rules st) /\
    (forall p, dropped w example p -> hm_get p (cat_rules (st_rules st')) = None) /\
    (forall p, ~ dropped w example p -> hm_get p (cat_rules (st_rules st')) = hm_get p (cat_rules rules)) /\
    (cat_name (st_rules st) = CBody -> exists gens, gens_added path_root occs (generator_at GcBody (st_gens st)) gens /\
       (forall p, dropped w example p -> hm_get p (cat_rules rules) <> None -> generator_at GcBody (st_gens st') p = None) /\
       (forall p, ~ dropped w example p \/ hm_get p (cat_rules rules) = None -> generator_at GcBody (st_gens st') p = gens p) /\
       (forall c p, c <> GcBody -> generator_at c (st_gens st') p = generator_at c (st_gens st) p)).
Proof.
  intros v st text st' H. unfold process_form in H. destruct (process_json_value w junk v st) as [[v' st1]|e|] eqn:P; cbn [bind] in H; try discriminate. cbn [fst snd] in H.
  destruct (convert_spec v' st1) as (l & outs & F & E & O). rewrite E in H. injection H as <- <-.
  apply C75_document in P as (occs & R & RA & GA & GO & _). exists v', occs, (st_rules st1). destruct (handled_spec outs st1) as [S1 S2]. cbv zeta in S1, S2.
  assert (D : forall p, dropped w v' p <-> existsb (fun q => drops q p) outs = true).
  { intro p. rewrite existsb_exists. unfold dropped, drops. split.
    - intros (q & a & b & L & Ep). exists q. split; [apply O, L|]. apply contains_iff. exists a, b. exact Ep.
    - intros (q & J & C). apply contains_iff in C as (a & b & Ep). exists q, a, b. split; [apply O, J | exact Ep]. }
  split; [exact R|]. split; [exists l; split; [exact F|]; intros T lossy; apply C109_forms_are_read_back, T|]. split; [exact RA|].
  split; [rewrite S1; apply RA|]. split; [|split].
  - intros p Dp. destruct (S2 p) as (A & _). apply D in Dp. rewrite Dp in A. exact A.
  - intros p Dp. destruct (S2 p) as (A & _). destruct (existsb _ outs) eqn:X; [exfalso; apply Dp, D, X | exact A].
  - intro CB. rewrite CB in GA, GO. exists (generator_at GcBody (st_gens st1)). split; [exact GA|]. split; [|split].
    + intros p Dp NR. destruct (S2 p) as (_ & B & _). apply D in Dp. rewrite Dp in B. rewrite B. unfold rule_at. destruct (hm_get p (cat_rules (st_rules st1))); [reflexivity | congruence].
    + intros p Dp. destruct (S2 p) as (_ & B & _). rewrite B. destruct (existsb _ outs) eqn:X; [|reflexivity]. destruct Dp as [Dp|NR]; [exfalso; apply Dp, D, X|].
      unfold rule_at. rewrite NR. reflexivity.
    + intros c p NC. destruct (S2 p) as (_ & _ & C). rewrite (C c NC). apply GO. exact NC.
Qed.
(** When it fails: the text is not JSON, or a rule cannot be read. *)
Theorem C109_outcome : forall body st,
  (exists text st', process_form w junk body st = Ok (text, st')) \/
  (process_form w junk body st = Panic /\
   (body = None \/ exists v ty m, body = Some v /\ within (JObj m) v /\ rule_create w (rj_for w (JObj m)) ty m = Panic)).
Proof.
  intros [v|] st; [|right; split; [reflexivity | left; reflexivity]]. unfold process_form.
  destruct (C75_outcome w junk v st) as [(v' & st1 & ->)|[-> (ty & m & A & B)]]; cbn [bind fst snd].
  - destruct (convert_params w v' st1) as [l st2]. left. eauto.
  - right. split; [reflexivity|]. right. exists v, ty, m. auto.
Qed.
(** A document stands for one form. *)
Lemma shown_one : forall v s t, shown_as w v s -> shown_as w v t -> s = t.
Proof. intros v s t A B. inversion A; subst; inversion B; subst; reflexivity. Qed.
Lemma items_one : forall vs a b, items w vs a -> items w vs b -> a = b.
Proof.
  induction vs as [|v vs IH]; intros a b A B.
  - inversion A; subst. inversion B; subst. reflexivity.
  - inversion A as [|? t ? ts SA IA|? ? ts NA IA]; subst; inversion B as [|? t' ? ts' SB IB|? ? ts' NB IB]; subst.
    + rewrite (shown_one _ _ _ SA SB), (IH _ _ IA IB). reflexivity.
    + exfalso. exact (NB _ SA).
    + exfalso. exact (NA _ SB).
    + exact (IH _ _ IA IB).
Qed.
Theorem C109_one_form : forall v a b, form_of w v a -> form_of w v b -> a = b.
Proof.
  intros v a b A B. destruct A as [m a A|v NO]; inversion B as [m' b' B'|v' NO']; subst; try reflexivity; try (exfalso; eapply NO; reflexivity); try (exfalso; eapply NO'; reflexivity).
  clear B. revert a b A B'. induction m as [|[k u] m IH]; intros a b A B.
  - inversion A; subst. inversion B; subst. reflexivity.
  - inversion A as [|? ? t ? l1 SA FA|? vs ts ? l1 IA FA|? ? ? l1 NA1 NA2 FA]; subst; inversion B as [|? ? t' ? l2 SB FB|? vs' ts' ? l2 IB FB|? ? ? l2 NB1 NB2 FB]; subst.
    + rewrite (shown_one _ _ _ SA SB), (IH _ _ FA FB). reflexivity.
    + inversion SA.
    + exfalso. exact (NB1 _ SA).
    + inversion SB.
    + rewrite (items_one _ _ _ IA IB), (IH _ _ FA FB). reflexivity.
    + exfalso. exact (NB2 _ eq_refl).
    + exfalso. exact (NA1 _ SB).
    + exfalso. exact (NA2 _ eq_refl).
    + exact (IH _ _ FA FB).
Qed.
End Form.

(** ** Examples *)
Definition form_document : json :=
  JObj [(S_ "active", JObj [(S_ "pact:matcher:type", JStr (S_ "type")); (S_ "value", JBool true)]);
        (S_ "activeSince", JObj [(S_ "pact:matcher:type", JStr (S_ "regex")); (S_ "regex", JStr (S_ "\d+")); (S_ "value", JStr (S_ "2020"))]);
        (S_ "name", JObj [(S_ "pact:generator:type", JStr (S_ "RandomString")); (S_ "pact:matcher:type", JStr (S_ "type")); (S_ "value", JStr (S_ "A & b"))]);
        (S_ "tags", JArr [JStr (S_ "x"); JNull; JNum (PosInt 7)])].
(** The rule of [activeSince] is lost with that of [active], which cannot be in a form. *)
Example C109_example junk w : exists text st,
  process_form w junk (Some form_document) body_store = Ok (text, st) /\
  text = S_ "activeSince=2020&name=A+%26+b&tags=x&tags=7" /\
  form_parse (fun _ => []) text = [(S_ "activeSince", S_ "2020"); (S_ "name", S_ "A & b"); (S_ "tags", S_ "x"); (S_ "tags", S_ "7")] /\
  map (fun e => (path_expr (fst e), rl_rules (snd e))) (cat_rules (st_rules st)) = [(S_ "$.name", [XRule RType])] /\
  option_map (map (fun e => (path_expr (fst e), snd e))) (cats_get GcBody (st_gens st)) = Some [(S_ "$.name", GRandomString 10)].
Proof. eexists. eexists. split; [vm_compute; reflexivity|]. vm_compute. auto. Qed.
(** Without a matcher on the boolean the rule of [activeSince] is lost as well. *)
Example C109_rules_of_longer_names junk w : exists text st,
  process_form w junk (Some (JObj [(S_ "a", JBool true);
     (S_ "ab", JObj [(S_ "pact:matcher:type", JStr (S_ "type")); (S_ "value", JStr (S_ "v"))])])) body_store = Ok (text, st) /\
  text = S_ "ab=v" /\ cat_rules (st_rules st) = [] /\
  dropped w (JObj [(S_ "a", JBool true); (S_ "ab", JStr (S_ "v"))]) (join path_root (S_ "ab")).
Proof.
  eexists. eexists. split; [vm_compute; reflexivity|]. split; [reflexivity|]. split; [reflexivity|].
  exists (join path_root (S_ "a")), [], (S_ "b"). split; [|reflexivity]. eapply lo_entry; [left; reflexivity | intros t H; inversion H | discriminate].
Qed.
