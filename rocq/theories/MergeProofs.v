(** Lemmas about joining lists, the product iterator and comparisons. *)
From Coq Require Import Ascii String List Arith NArith ZArith Lia Bool Permutation.
From Verif Require Import Base PathExp Json Text MatchingRules Matchers JsonCompare Headers Query ContentType Http
  Merge SpecMerge RulesProofs3 PropHttp2.
Import ListNotations.
Open Scope N_scope.

Lemma nonempty_false : forall A (l : list A), nonempty l = false <-> l = [].
Proof. intros A [|a l]; split; cbn; congruence. Qed.

(** ** The product iterator *)
Lemma list_prod_skip : forall A B (v1 : list A) (v2 : list B) i a,
  nth_error v1 i = Some a ->
  list_prod (skipn i v1) v2 = map (fun b => (a, b)) v2 ++ list_prod (skipn (S i) v1) v2.
Proof.
  intros A B v1; induction v1 as [|x v1 IH]; intros v2 [|i] a H; cbn in H; try discriminate.
  - injection H as ->. reflexivity.
  - apply (IH v2 i a H).
Qed.
Lemma skipn_nth : forall A (l : list A) i a, nth_error l i = Some a -> skipn i l = a :: skipn (S i) l.
Proof.
  intros A l; induction l as [|x l IH]; intros [|i] a H; cbn in H; try discriminate.
  - injection H as ->. reflexivity.
  - apply IH, H.
Qed.
Lemma nth_lt : forall A (l : list A) i, (i < length l)%nat -> exists a, nth_error l i = Some a.
Proof.
  intros A l i H. destruct (nth_error l i) as [a|] eqn:E; [exists a; reflexivity|].
  apply nth_error_None in E. lia.
Qed.

Lemma product_rest : forall A B (v1 : list A) (v2 : list B) fuel i j a,
  nth_error v1 i = Some a -> (j <= length v2)%nat -> v2 <> [] ->
  (length (map (fun b => (a, b)) (skipn j v2) ++ list_prod (skipn (S i) v1) v2) < fuel)%nat ->
  product_collect fuel v1 v2 (mkPI i j) =
  Ok (map (fun b => (a, b)) (skipn j v2) ++ list_prod (skipn (S i) v1) v2).
Proof.
  intros A B v1 v2 fuel; induction fuel as [|f IH]; intros i j a Ha Hj Hne Hl; [lia|].
  assert (L1 : (i < length v1)%nat) by (apply nth_error_Some; congruence).
  assert (N1 : nonempty v1 = true) by (destruct v1; [cbn in L1; lia|reflexivity]).
  assert (N2 : nonempty v2 = true) by (destruct v2; [congruence|reflexivity]).
  assert (E1 : Nat.eqb i (length v1) = false) by (apply Nat.eqb_neq; lia).
  cbn [product_collect]. unfold product_next. rewrite N1, N2. cbn [negb orb v1_idx v2_idx].
  rewrite E1. cbn [andb].
  destruct (Nat.eqb j (length v2)) eqn:E2.
  - apply Nat.eqb_eq in E2. subst j.
    rewrite skipn_all. cbn [map app]. rewrite skipn_all in Hl. cbn [map app] in Hl.
    destruct (Nat.eqb (S i) (length v1)) eqn:E3.
    + apply Nat.eqb_eq in E3. rewrite E3, skipn_all. reflexivity.
    + apply Nat.eqb_neq in E3. destruct (nth_lt _ v1 (S i) ltac:(lia)) as [a' Ha'].
      rewrite Ha'. destruct v2 as [|b v2]; [congruence|]. cbn [Nat.sub nth_error bind].
      rewrite (list_prod_skip _ _ v1 (b :: v2) (S i) a' Ha') in Hl |- *.
      cbn [map app] in Hl |- *.
      rewrite (IH (S i) 1%nat a' Ha'); [reflexivity|cbn; lia|congruence|].
      change (skipn 1 (b :: v2)) with v2. cbn [length] in Hl. lia.
  - apply Nat.eqb_neq in E2. destruct (nth_lt _ v2 j ltac:(lia)) as [b Hb].
    rewrite Ha. replace (S j - 1)%nat with j by lia. rewrite Hb. cbn [bind].
    rewrite (skipn_nth _ v2 j b Hb) in Hl |- *. cbn [map app] in Hl |- *.
    rewrite (IH i (S j) a Ha); [reflexivity|lia|congruence|]. cbn [length] in Hl. lia.
Qed.

(** The iterator enumerates exactly the pairs and never goes out of bounds. *)
Lemma product_correct : forall A B (v1 : list A) (v2 : list B), product v1 v2 = Ok (list_prod v1 v2).
Proof.
  intros A B v1 v2. unfold product.
  destruct v1 as [|a v1].
  { reflexivity. }
  destruct v2 as [|b v2].
  { cbn. replace (list_prod v1 (@nil B)) with (@nil (A * B)); [reflexivity|].
    induction v1 as [|x v1 IH]; [reflexivity|exact IH]. }
  rewrite (product_rest _ _ (a :: v1) (b :: v2) _ 0 0 a).
  - reflexivity.
  - reflexivity.
  - lia.
  - congruence.
  - cbn [skipn]. rewrite app_length, map_length, prod_length. cbn [length]. lia.
Qed.

(** ** Joining *)
Lemma merge_join_nil_l : forall A B (cmp : A -> B -> comparison) r, merge_join cmp [] r = map Right r.
Proof. intros A B cmp [|b r]; reflexivity. Qed.
Lemma merge_join_nil_r : forall A B (cmp : A -> B -> comparison) l, merge_join cmp l [] = map Left l.
Proof. intros A B cmp [|a l]; reflexivity. Qed.
Lemma merge_join_cons : forall A B (cmp : A -> B -> comparison) a l b r,
  merge_join cmp (a :: l) (b :: r) =
  match cmp a b with
  | Lt => Left a :: merge_join cmp l (b :: r)
  | Eq => Both a b :: merge_join cmp l r
  | Gt => Right b :: merge_join cmp (a :: l) r
  end.
Proof. reflexivity. Qed.

Inductive joined {A B} (cmp : A -> B -> comparison) : list A -> list B -> list (either A B) -> Prop :=
  | jn_nil : joined cmp [] [] []
  | jn_left : forall a l r es, joined cmp l r es -> joined cmp (a :: l) r (Left a :: es)
  | jn_right : forall b l r es, joined cmp l r es -> joined cmp l (b :: r) (Right b :: es)
  | jn_both : forall a b l r es, cmp a b = Eq -> joined cmp l r es -> joined cmp (a :: l) (b :: r) (Both a b :: es).

Lemma merge_join_joined : forall A B (cmp : A -> B -> comparison) l r, joined cmp l r (merge_join cmp l r).
Proof.
  intros A B cmp; induction l as [|a l IHl]; intro r.
  - rewrite merge_join_nil_l. induction r as [|b r IH]; cbn; constructor; exact IH.
  - induction r as [|b r IHr].
    + rewrite merge_join_nil_r. clear. induction (a :: l) as [|x y IH]; cbn; constructor; exact IH.
    + rewrite merge_join_cons. destruct (cmp a b) eqn:E.
      * apply jn_both; [exact E|apply IHl].
      * apply jn_left. apply IHl.
      * apply jn_right. exact IHr.
Qed.

(** ** Comparisons *)
Lemma strs_compare_refl : forall a, strs_compare a a = Eq.
Proof. induction a as [|x a IH]; [reflexivity|]. cbn. rewrite str_compare_refl. exact IH. Qed.
Lemma strs_compare_eq : forall a b, strs_compare a b = Eq <-> a = b.
Proof.
  intros a b; split; [|intros ->; apply strs_compare_refl].
  revert b; induction a as [|x a IH]; intros [|y b]; cbn; try congruence.
  destruct (str_compare x y) eqn:E; try congruence. apply str_compare_eq in E. subst.
  intro H. f_equal. apply IH, H.
Qed.
Lemma strs_compare_antisym : forall a b, strs_compare b a = CompOpp (strs_compare a b).
Proof.
  induction a as [|x a IH]; intros [|y b]; cbn; try reflexivity.
  rewrite (str_compare_antisym x y). destruct (str_compare x y); cbn; [apply IH|reflexivity|reflexivity].
Qed.
Lemma strs_compare_lt_trans : forall a b c, strs_compare a b = Lt -> strs_compare b c = Lt -> strs_compare a c = Lt.
Proof.
  induction a as [|x a IH]; intros [|y b] [|z c]; cbn; try congruence.
  destruct (str_compare x y) eqn:E1; try congruence;
  destruct (str_compare y z) eqn:E2; try congruence; intros H1 H2.
  - apply str_compare_eq in E1. subst. rewrite E2. exact (IH _ _ H1 H2).
  - apply str_compare_eq in E1. subst. rewrite E2. reflexivity.
  - apply str_compare_eq in E2. subst. rewrite E1. reflexivity.
  - rewrite (str_lt_trans _ _ _ E1 E2). reflexivity.
Qed.

Lemma v3_cmp_eq : forall d s b, v3_cmp d s b = Eq <-> same_v3 d s b.
Proof.
  intros d s b. unfold v3_cmp, same_v3. destruct (str_compare d (i_desc b)) eqn:E.
  - apply str_compare_eq in E. destruct (nonempty s) eqn:N.
    + rewrite strs_compare_eq. unfold names. split.
      * intro H. split; [exact E|right; exact H].
      * intros [_ [H|H]]; [subst s; discriminate N|exact H].
    + apply nonempty_false in N. split; [intros _; split; [exact E|left; exact N]|reflexivity].
  - split; [discriminate|]. intros [H _]. subst d. rewrite str_compare_refl in E. discriminate.
  - split; [discriminate|]. intros [H _]. subst d. rewrite str_compare_refl in E. discriminate.
Qed.

Lemma v4_type_of_eq : forall a b, str_compare (v4_type_of a) (v4_type_of b) = Eq <-> same_type a b.
Proof.
  intros a b. rewrite str_compare_eq. unfold v4_type_of, v4_type, same_type.
  destruct (v_payload a), (v_payload b); split; intro H; try exact I; try contradiction; try reflexivity;
    vm_compute in H; discriminate.
Qed.

Lemma v4_cmp_eq : forall a b, v4_cmp a b = Eq <-> same_v4 a b.
Proof.
  intros a b. unfold v4_cmp, same_v4.
  set (rest := match str_compare (v_desc a) (v_desc b) with
               | Eq => if nonempty (v_states a)
                       then match strs_compare (names (v_states a)) (names (v_states b)) with
                            | Eq => str_compare (v4_type_of a) (v4_type_of b)
                            | Lt => Lt | Gt => Gt end
                       else str_compare (v4_type_of a) (v4_type_of b)
               | Lt => Lt | Gt => Gt end).
  assert (R : rest = Eq <-> (v_desc a = v_desc b /\
     (v_states a = [] \/ map st_name (v_states a) = map st_name (v_states b)) /\ same_type a b)).
  { unfold rest. destruct (str_compare (v_desc a) (v_desc b)) eqn:E.
    - apply str_compare_eq in E. destruct (nonempty (v_states a)) eqn:N.
      + destruct (strs_compare (names (v_states a)) (names (v_states b))) eqn:F.
        * rewrite v4_type_of_eq. apply strs_compare_eq in F. unfold names in F. tauto.
        * split; [discriminate|]. intros [_ [[H|H] _]].
          -- rewrite H in N. discriminate.
          -- unfold names in F. rewrite H, strs_compare_refl in F. discriminate.
        * split; [discriminate|]. intros [_ [[H|H] _]].
          -- rewrite H in N. discriminate.
          -- unfold names in F. rewrite H, strs_compare_refl in F. discriminate.
      + apply nonempty_false in N. rewrite v4_type_of_eq. tauto.
    - split; [discriminate|]. intros [H _]. rewrite H, str_compare_refl in E. discriminate.
    - split; [discriminate|]. intros [H _]. rewrite H, str_compare_refl in E. discriminate. }
  destruct (v_key a), (v_key b); [apply str_compare_eq|exact R|exact R|exact R].
Qed.

Lemma same_v4_refl : forall a, same_v4 a a.
Proof.
  intro a. unfold same_v4. destruct (v_key a); [reflexivity|].
  split; [reflexivity|]. split; [right; reflexivity|]. unfold same_type. destruct (v_payload a); exact I.
Qed.

(** A list joined with itself. *)
Lemma merge_join_same : forall A B (cmp : A -> B -> comparison) (f : A -> B) l,
  (forall a, In a l -> cmp a (f a) = Eq) -> merge_join cmp l (map f l) = map (fun a => Both a (f a)) l.
Proof.
  intros A B cmp f l; induction l as [|a l IH]; intro H; [reflexivity|].
  cbn [map]. rewrite merge_join_cons. rewrite (H a (or_introl eq_refl)).
  f_equal. apply IH. intros x Hx. apply H. right. exact Hx.
Qed.

Lemma all_some_map : forall A B (f : A -> option B) (g : A -> B) l,
  (forall a, In a l -> f a = Some (g a)) -> all_some (map f l) = Some (map g l).
Proof.
  intros A B f g l; induction l as [|a l IH]; intro H; [reflexivity|].
  cbn. rewrite (H a (or_introl eq_refl)). rewrite IH; [reflexivity|]. intros x Hx. apply H. right. exact Hx.
Qed.
Lemma all_some_inv : forall A (l : list (option A)) r, all_some l = Some r <-> l = map Some r.
Proof.
  intros A l; induction l as [|[a|] l IH]; intro r; cbn.
  - split; [intro H; injection H as <-; reflexivity|destruct r; [reflexivity|discriminate]].
  - destruct (all_some l) as [r'|] eqn:E.
    + split.
      * intro H. injection H as <-. cbn. f_equal. apply IH. reflexivity.
      * destruct r as [|x r]; [discriminate|]. cbn. intro H. injection H as -> H. apply IH in H.
        injection H as ->. reflexivity.
    + split; [discriminate|]. destruct r as [|x r]; [discriminate|]. cbn. intro H. injection H as -> H.
      apply IH in H. discriminate.
  - split; [discriminate|]. destruct r as [|x r]; discriminate.
Qed.

(** ** Maps and states *)
Lemma map_eqb_iff : forall A (eqv : A -> A -> bool) a b, distinct a -> distinct b ->
  (map_eqb eqv a b = true <-> same_map (fun x y => eqv x y = true) a b).
Proof.
  intros A eqv a b Da Db. unfold map_eqb. rewrite andb_true_iff, Nat.eqb_eq, forallb_forall. split.
  - intros [L H] k.
    assert (INC : incl (map fst a) (map fst b)).
    { intros k' Hk. apply in_map_iff in Hk. destruct Hk as [kv [<- Hkv]]. specialize (H kv Hkv).
      destruct (obj_get (fst kv) b) as [v|] eqn:G; [|discriminate].
      apply obj_get_in in G. apply in_map_iff. exists (fst kv, v). split; [reflexivity|exact G]. }
    assert (INC' : incl (map fst b) (map fst a)).
    { apply NoDup_length_incl; [exact Da| |exact INC]. rewrite !map_length. lia. }
    destruct (obj_get k a) as [x|] eqn:Ga.
    + apply obj_get_in in Ga. specialize (H (k, x) Ga). cbn [fst snd] in H.
      destruct (obj_get k b) as [y|]; [exact H|discriminate].
    + destruct (obj_get k b) as [y|] eqn:Gb; [|exact I].
      apply obj_get_in in Gb.
      assert (Hin : In k (map fst a)).
      { apply INC'. apply in_map_iff. exists (k, y). split; [reflexivity|exact Gb]. }
      apply in_map_iff in Hin. destruct Hin as [[k' x] [E Hx]]. cbn in E. subst k'.
      rewrite (obj_get_nodup _ k x a Da Hx) in Ga. discriminate.
  - intro H. split.
    + rewrite <- (map_length fst a), <- (map_length fst b).
      apply Permutation_length. apply NoDup_Permutation; [exact Da|exact Db|].
      intro k. specialize (H k).
      destruct (obj_get k a) as [x|] eqn:Ga; destruct (obj_get k b) as [y|] eqn:Gb; try contradiction.
      * apply obj_get_in in Ga. apply obj_get_in in Gb.
        split; intros _; apply in_map_iff; [exists (k, y)|exists (k, x)]; (split; [reflexivity|assumption]).
      * assert (NA : ~ In k (map fst a)).
        { intro C. apply in_map_iff in C. destruct C as [[k' x] [E Hx]]. cbn in E. subst k'.
          rewrite (obj_get_nodup _ k x a Da Hx) in Ga. discriminate. }
        assert (NB : ~ In k (map fst b)).
        { intro C. apply in_map_iff in C. destruct C as [[k' x] [E Hx]]. cbn in E. subst k'.
          rewrite (obj_get_nodup _ k x b Db Hx) in Gb. discriminate. }
        tauto.
    + intros [k x] Hx. cbn [fst snd]. specialize (H k). rewrite (obj_get_nodup _ k x a Da Hx) in H.
      destruct (obj_get k b) as [y|]; [exact H|contradiction].
Qed.

Lemma states_eqb_iff : forall a b,
  Forall (fun s => distinct (st_params s)) a -> Forall (fun s => distinct (st_params s)) b ->
  (list_eqb state_eqb a b = true <-> same_states a b).
Proof.
  unfold same_states. induction a as [|x a IH]; intros [|y b] Ha Hb; cbn [list_eqb].
  - split; [constructor|reflexivity].
  - split; [discriminate|]. intro H. inversion H.
  - split; [discriminate|]. intro H. inversion H.
  - inversion Ha; subst. inversion Hb; subst. rewrite andb_true_iff. unfold state_eqb at 1.
    rewrite andb_true_iff. rewrite (map_eqb_iff _ json_eqb) by assumption. rewrite IH by assumption.
    split.
    + intros [[E M] F]. constructor; [split; [|exact M]|exact F].
      destruct (str_eqb_spec (st_name x) (st_name y)); [assumption|discriminate].
    + intro H. inversion H as [|? ? ? ? [E M] F]; subst. split; [split; [|exact M]|exact F].
      destruct (str_eqb_spec (st_name x) (st_name y)); [reflexivity|contradiction].
Qed.
