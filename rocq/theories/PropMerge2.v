(** C29: rewriting pact files, one pact many times and histories of different pacts. *)
From Coq Require Import Ascii String List Arith NArith ZArith Lia Bool Permutation Sorted.
From Verif Require Import Base PathExp Json Text MatchingRules Matchers JsonCompare Headers Query ContentType Http
  Merge SpecMerge RulesProofs3 PropHttp2 MergeProofs PropMerge.
Import ListNotations.
Open Scope N_scope.

(** ** The same pact again *)
(** A request/response pact none of whose interactions conflicts with another of it. *)
Definition coherent (p : pact) : Prop :=
  match p with
  | PRR q => Forall rr_ok (rrp_ints q) /\
             forall a b, In a (rrp_ints q) -> In b (rrp_ints q) -> ~ conflict_between a (IHttp b)
  | _ => True
  end.

Lemma v3_cmp_self : forall d s b, i_desc b = d -> i_states b = s -> v3_cmp d s b = Eq.
Proof. intros d s b <- <-. apply v3_cmp_eq. split; [reflexivity|right; reflexivity]. Qed.

(** Merging a pact with itself gives its interactions, each once, in the same order. *)
Theorem C29_merge_with_itself : forall p, coherent p -> exists m, merge p p = Ok m /\ interactions m = interactions p.
Proof.
  intros [p|p|p] C; cbn [merge].
  - destruct C as [Ok_ NC]. unfold rr_merge.
    rewrite (proj2 (who_eqb_iff _ _) (conj eq_refl eq_refl)), product_correct.
    destruct (nonempty _) eqn:E.
    + exfalso. apply conflicting_pairs in E.
      * destruct E as [a [b [Ha [Hb X]]]]. cbn [interactions] in Hb. apply in_map_iff in Hb.
        destruct Hb as [b' [<- Hb]]. exact (NC a b' Ha Hb X).
      * exact Ok_.
      * cbn [interactions]. rewrite Forall_forall in Ok_ |- *. intros b Hb. apply in_map_iff in Hb.
        destruct Hb as [b' [<- Hb]]. exact (Ok_ b' Hb).
    + cbn [interactions]. rewrite (merge_join_same _ _ _ IHttp).
      * rewrite map_map. cbn [take_other as_request_response].
        rewrite (all_some_map _ _ _ (fun a => a)); [|reflexivity]. rewrite map_id.
        eexists. split; reflexivity.
      * intros a _. apply v3_cmp_self; reflexivity.
  - unfold msg_merge. rewrite (proj2 (who_eqb_iff _ _) (conj eq_refl eq_refl)).
    cbn [interactions]. rewrite (merge_join_same _ _ _ IMsg).
    + rewrite map_map. cbn [take_other as_message].
      rewrite (all_some_map _ _ _ (fun a => a)); [|reflexivity]. rewrite map_id. eexists. split; reflexivity.
    + intros a _. apply v3_cmp_self; reflexivity.
  - unfold v4_merge. rewrite (proj2 (who_eqb_iff _ _) (conj eq_refl eq_refl)).
    cbn [interactions]. rewrite map_map. cbn [as_v4].
    rewrite (all_some_map _ _ _ (fun a => a)); [|reflexivity].
    rewrite (merge_join_same _ _ _ (fun a => a)).
    + eexists. split; [reflexivity|]. cbn [interactions vp_ints]. rewrite !map_map. cbn [take_self]. reflexivity.
    + intros a _. apply v4_cmp_eq, same_v4_refl.
Qed.

(** A request/response pact with two interactions that conflict can be written once, but
    not again. *)
Theorem C29_incoherent_is_refused : forall q a b, Forall rr_ok (rrp_ints q) ->
  In a (rrp_ints q) -> In b (rrp_ints q) -> conflict_between a (IHttp b) ->
  write_pact (PRR q) None = (Some (PRR q), None) /\
  exists n, write_pact (PRR q) (Some (PRR q)) = (Some (PRR q), Some (Conflicting n)).
Proof.
  intros q a b Ok_ Ha Hb C. split; [reflexivity|].
  assert (E : exists n, merge (PRR q) (PRR q) = Err (Conflicting n)).
  { apply (C30_conflicts q (PRR q)); try reflexivity; [exact Ok_| |].
    - unfold others_ok. cbn [interactions]. rewrite Forall_forall in Ok_ |- *. intros i Hi.
      apply in_map_iff in Hi. destruct Hi as [b' [<- Hb']]. exact (Ok_ b' Hb').
    - exists a, (IHttp b). split; [exact Ha|]. split; [apply in_map; exact Hb|exact C]. }
  destruct E as [n E]. exists n. unfold write_pact. rewrite E. reflexivity.
Qed.

(** Descriptions in ascending order (with repetitions). *)
Definition by_description (l : list v4i) : Prop :=
  StronglySorted (fun a b => str_compare (v_desc a) (v_desc b) <> Gt) l.
Lemma sort_sorted : forall l, by_description l -> sort_by_description l = l.
Proof.
  intros l H. induction H as [|a l H IH F]; [reflexivity|]. unfold sort_by_description in *.
  cbn [fold_right]. rewrite IH. destruct l as [|b l]; [reflexivity|]. cbn [insert_sorted].
  inversion F; subst. destruct (str_compare (v_desc a) (v_desc b)); [reflexivity|reflexivity|contradiction].
Qed.

(** Writing a pact any number of times leaves its interactions, each once: for V3 pacts in
    any order, for V4 pacts whose descriptions are in ascending order. *)
Theorem C29_written_again_and_again : forall p n,
  coherent p ->
  match p with PV4 q => by_description (vp_ints q) | _ => True end ->
  exists f, written (repeat p (S n)) None = Some f /\ interactions f = interactions p.
Proof.
  intros p n C Sd.
  assert (W : forall f, interactions f = interactions p -> who f = who p ->
     match p with PV4 _ => exists q, f = PV4 q | PRR _ => exists q, f = PRR q | PMsg _ => exists q, f = PMsg q end ->
     exists m, merge p f = Ok m /\ interactions m = interactions p /\ who m = who p /\
       match p with PV4 _ => exists q, m = PV4 q | PRR _ => exists q, m = PRR q | PMsg _ => exists q, m = PMsg q end).
  { intros f Ei Ew K. destruct (C29_merge_with_itself p C) as [m [Em Im]].
    destruct p as [p|p|p]; destruct K as [q ->]; cbn [merge] in *.
    - unfold rr_merge in *. rewrite Ew. rewrite Ei.
      destruct (who_eqb _ _); [|discriminate]. rewrite product_correct in *.
      destruct (nonempty _); [discriminate|]. destruct (all_some _); [|discriminate].
      exists m. split; [exact Em|]. split; [exact Im|]. injection Em as <-. split; [reflexivity|]. eexists; reflexivity.
    - unfold msg_merge in *. rewrite Ew. rewrite Ei.
      destruct (who_eqb _ _); [|discriminate]. destruct (all_some _); [|discriminate].
      exists m. split; [exact Em|]. split; [exact Im|]. injection Em as <-. split; [reflexivity|]. eexists; reflexivity.
    - unfold v4_merge in *. rewrite Ew. rewrite Ei.
      destruct (who_eqb _ _); [|discriminate]. destruct (all_some _); [|discriminate].
      eexists. split; [reflexivity|]. injection Em as <-. cbn [interactions vp_ints] in Im |- *.
      split; [exact Im|]. split; [reflexivity|]. eexists; reflexivity. }
  assert (R : forall k f, interactions f = interactions p -> who f = who p ->
     match p with PV4 _ => exists q, f = PV4 q | PRR _ => exists q, f = PRR q | PMsg _ => exists q, f = PMsg q end ->
     exists g, written (repeat p k) (Some f) = Some g /\ interactions g = interactions p).
  { induction k as [|k IH]; intros f Ei Ew K.
    - exists f. split; [reflexivity|exact Ei].
    - destruct (W f Ei Ew K) as [m [Em [Im [Wm Km]]]].
      cbn [repeat]. unfold written. cbn [fold_left]. unfold write_pact at 2. rewrite Em. cbn [fst].
      apply IH.
      + destruct p as [p|p|p]; destruct Km as [q ->]; cbn [as_written]; try exact Im.
        cbn [interactions vp_ints] in Im |- *.
        assert (Eq_ : vp_ints q = vp_ints p).
        { clear -Im. revert Im. generalize (vp_ints q) (vp_ints p). intros x; induction x as [|a x IHx]; intros [|b y] E; try discriminate; [reflexivity|].
          cbn in E. injection E as -> E. f_equal. exact (IHx y E). }
        rewrite Eq_. rewrite (sort_sorted _ Sd). reflexivity.
      + destruct p as [p|p|p]; destruct Km as [q ->]; exact Wm.
      + destruct p as [p|p|p]; destruct Km as [q ->]; eexists; reflexivity. }
  cbn [repeat]. unfold written. cbn [fold_left]. cbn [write_pact fst].
  apply R.
  - destruct p as [p|p|p]; cbn [as_written]; try reflexivity. cbn [interactions vp_ints]. rewrite (sort_sorted _ Sd). reflexivity.
  - destruct p as [p|p|p]; reflexivity.
  - destruct p as [p|p|p]; eexists; reflexivity.
Qed.

(** If the descriptions of a V4 pact are not in ascending order, writing it again adds
    interactions it already has: after n writes of this pact of two interactions, the
    first one by name is there n times. *)
Definition ex_unsorted : pact := PV4 (mkV4P ex_who [ex_v4 None (S_ "b") []; ex_v4 None (S_ "a") []] [] []).
Theorem C29_why_descriptions_ascend : forall n, exists f,
  written (repeat ex_unsorted (S n)) None = Some f /\
  interactions f = repeat (IV4 (ex_v4 None (S_ "a") [])) (S n) ++ [IV4 (ex_v4 None (S_ "b") [])].
Proof.
  intro n.
  set (a := ex_v4 None (S_ "a") []). set (b := ex_v4 None (S_ "b") []).
  assert (M : forall k, map take_self (merge_join v4_cmp [b; a] (repeat a (S k) ++ [b])) = repeat a (S k) ++ [b; a]).
  { assert (J : forall k, merge_join v4_cmp [b; a] (repeat a k ++ [b]) = map Right (repeat a k) ++ [Both b b; Left a]).
    { induction k as [|k IH]; [reflexivity|]. cbn [repeat app map]. rewrite merge_join_cons.
      change (v4_cmp b a) with Gt. cbn iota. rewrite IH. reflexivity. }
    intro k. rewrite J. rewrite map_app, map_map. cbn [take_self]. rewrite map_id. reflexivity. }
  assert (So : forall k, sort_by_description (repeat a (S k) ++ [b; a]) = repeat a (S (S k)) ++ [b]).
  { induction k as [|k IH]; [reflexivity|].
    change (repeat a (S (S k)) ++ [b; a]) with (a :: (repeat a (S k) ++ [b; a])).
    change (sort_by_description (a :: (repeat a (S k) ++ [b; a]))) with (insert_sorted a (sort_by_description (repeat a (S k) ++ [b; a]))).
    rewrite IH. reflexivity. }
  assert (R : forall k, written (repeat ex_unsorted (S k)) None =
     Some (PV4 (mkV4P ex_who (repeat a (S k) ++ [b]) [] []))).
  { induction k as [|k IH]; [reflexivity|].
    replace (repeat ex_unsorted (S (S k))) with (repeat ex_unsorted (S k) ++ [ex_unsorted]).
    - unfold written in *. rewrite fold_left_app, IH. cbn [fold_left].
      unfold write_pact, ex_unsorted. cbn [merge]. unfold v4_merge.
      cbn [vp_who who]. rewrite (proj2 (who_eqb_iff _ _) (conj eq_refl eq_refl)).
      cbn [interactions vp_ints]. rewrite map_map. cbn [as_v4].
      rewrite (all_some_map _ _ _ (fun i => i)); [|reflexivity]. rewrite map_id.
      fold b. fold a. rewrite M. cbn [fst vp_plugins fold_left as_written vp_ints vp_meta vp_who].
      rewrite So. reflexivity.
    - rewrite <- repeat_cons. reflexivity. }
  eexists. split; [apply R|]. cbn [interactions vp_ints]. rewrite map_app.
  f_equal. generalize (S n). clear. intro m. induction m as [|m IH]; [reflexivity|]. cbn. f_equal. exact IH.
Qed.

Example C29_example : coherent ex_unsorted /\
  exists p, coherent (PRR p) /\ (length (rrp_ints p) = 2)%nat.
Proof.
  split; [exact I|].
  exists (mkRRP ex_who [ex_rr (S_ "b") [] (S_ "/b"); ex_rr (S_ "a") [] (S_ "/a")] []). split; [|reflexivity].
  split.
  - repeat (constructor; [split; [constructor|exact I]|]). constructor.
  - intros a b Ha Hb. cbn in Ha, Hb.
    destruct Ha as [<-|[<-|[]]]; destruct Hb as [<-|[<-|[]]]; intros [D [_ C]]; cbn in D; try discriminate D;
      cbn in C; intuition.
Qed.

(** ** Histories of different pacts *)
(** What identifies an interaction in a file of one kind. *)
Section Order.
Variables (A K : Type) (key : A -> K) (kcmp : K -> K -> comparison).
Hypothesis kcmp_eq : forall a b, kcmp a b = Eq <-> a = b.
Hypothesis kcmp_anti : forall a b, kcmp b a = CompOpp (kcmp a b).
Hypothesis kcmp_trans : forall a b c, kcmp a b = Lt -> kcmp b c = Lt -> kcmp a c = Lt.
Definition strictly (l : list A) : Prop := StronglySorted (fun a b => kcmp (key a) (key b) = Lt) l.

Variables (B : Type) (cmp : A -> B -> comparison) (conv : B -> A) (out : either A B -> A).
Hypothesis out_left : forall a, out (Left a) = a.
Hypothesis out_right : forall b, out (Right b) = conv b.
Hypothesis out_both : forall a b, key (out (Both a b)) = key a \/ key (out (Both a b)) = key (conv b).

Lemma join_in : forall l r, (forall a b, In a l -> In b r -> cmp a b = kcmp (key a) (key (conv b))) ->
  forall x, In x (map out (merge_join cmp l r)) -> (exists a, In a l /\ key x = key a) \/ (exists b, In b r /\ key x = key (conv b)).
Proof.
  intros l r H x Hx. assert (J := merge_join_joined _ _ cmp l r).
  revert H Hx. induction J; cbn [map In]; intros H0 Hx.
  - destruct Hx.
  - destruct Hx as [<-|Hx].
    + left. exists a. split; [left; reflexivity|]. rewrite out_left. reflexivity.
    + destruct IHJ as [[y [Hy E]]|[y [Hy E]]]; [intros u v Hu Hv; apply H0; [right; exact Hu|exact Hv]|exact Hx| |].
      * left. exists y. split; [right; exact Hy|exact E].
      * right. exists y. split; [exact Hy|exact E].
  - destruct Hx as [<-|Hx].
    + right. exists b. split; [left; reflexivity|]. rewrite out_right. reflexivity.
    + destruct IHJ as [[y [Hy E]]|[y [Hy E]]]; [intros u v Hu Hv; apply H0; [exact Hu|right; exact Hv]|exact Hx| |].
      * left. exists y. split; [exact Hy|exact E].
      * right. exists y. split; [right; exact Hy|exact E].
  - destruct Hx as [<-|Hx].
    + destruct (out_both a b) as [E|E].
      * left. exists a. split; [left; reflexivity|exact E].
      * right. exists b. split; [left; reflexivity|exact E].
    + destruct IHJ as [[y [Hy E]]|[y [Hy E]]]; [intros u v Hu Hv; apply H0; right; assumption|exact Hx| |].
      * left. exists y. split; [right; exact Hy|exact E].
      * right. exists y. split; [right; exact Hy|exact E].
Qed.

Lemma join_has : forall l r, (forall a b, In a l -> In b r -> cmp a b = kcmp (key a) (key (conv b))) ->
  (forall a, In a l -> exists x, In x (map out (merge_join cmp l r)) /\ key x = key a) /\
  (forall b, In b r -> exists x, In x (map out (merge_join cmp l r)) /\ key x = key (conv b)).
Proof.
  intros l r H0. assert (J := merge_join_joined _ _ cmp l r).
  revert H0. induction J; cbn [map]; intros H0.
  - split; intros x [].
  - destruct IHJ as [IL IR]; [intros u v Hu Hv; apply H0; [right; exact Hu|exact Hv]|]. split.
    + intros x [<-|Hx].
      * exists (out (Left a)). split; [left; reflexivity|]. rewrite out_left. reflexivity.
      * destruct (IL x Hx) as [y [Hy E]]. exists y. split; [right; exact Hy|exact E].
    + intros x Hx. destruct (IR x Hx) as [y [Hy E]]. exists y. split; [right; exact Hy|exact E].
  - destruct IHJ as [IL IR]; [intros u v Hu Hv; apply H0; [exact Hu|right; exact Hv]|]. split.
    + intros x Hx. destruct (IL x Hx) as [y [Hy E]]. exists y. split; [right; exact Hy|exact E].
    + intros x [<-|Hx].
      * exists (out (Right b)). split; [left; reflexivity|]. rewrite out_right. reflexivity.
      * destruct (IR x Hx) as [y [Hy E]]. exists y. split; [right; exact Hy|exact E].
  - destruct IHJ as [IL IR]; [intros u v Hu Hv; apply H0; right; assumption|].
    assert (E0 : key a = key (conv b)).
    { apply kcmp_eq. rewrite <- H0; [exact H|left; reflexivity|left; reflexivity]. }
    split.
    + intros x [<-|Hx].
      * exists (out (Both a b)). split; [left; reflexivity|]. destruct (out_both a b) as [E|E]; congruence.
      * destruct (IL x Hx) as [y [Hy E]]. exists y. split; [right; exact Hy|exact E].
    + intros x [<-|Hx].
      * exists (out (Both a b)). split; [left; reflexivity|]. destruct (out_both a b) as [E|E]; congruence.
      * destruct (IR x Hx) as [y [Hy E]]. exists y. split; [right; exact Hy|exact E].
Qed.

Lemma join_strict : forall l r, (forall a b, In a l -> In b r -> cmp a b = kcmp (key a) (key (conv b))) ->
  strictly l -> strictly (map conv r) -> strictly (map out (merge_join cmp l r)).
Proof.
  induction l as [|a l IHl].
  - intros r _ _ Sr. rewrite merge_join_nil_l, map_map.
    rewrite (map_ext (fun b => out (Right b)) conv); [exact Sr|exact out_right].
  - induction r as [|b r IHr]; intros H0 Sl Sr.
    + rewrite merge_join_nil_r, map_map. rewrite (map_ext (fun x => out (Left x)) (fun x => x)); [rewrite map_id; exact Sl|exact out_left].
    + rewrite merge_join_cons. pose proof Sl as Sl0. pose proof Sr as Sr0.
      cbn [map] in Sr. inversion Sl as [|? ? Sl' Fl]; subst. inversion Sr as [|? ? Sr' Fr]; subst.
      rewrite Forall_forall in Fl, Fr.
      rewrite (H0 a b (or_introl eq_refl) (or_introl eq_refl)).
      destruct (kcmp (key a) (key (conv b))) eqn:E.
      * cbn [map]. assert (H1 : forall u v, In u l -> In v r -> cmp u v = kcmp (key u) (key (conv v))) by (intros; apply H0; right; assumption).
        constructor; [apply IHl; assumption|].
        apply Forall_forall. intros x Hx.
        assert (Ek : key (out (Both a b)) = key a).
        { apply kcmp_eq in E. destruct (out_both a b); congruence. }
        rewrite Ek. destruct (join_in l r H1 x Hx) as [[y [Hy Ey]]|[y [Hy Ey]]]; rewrite Ey.
        -- apply Fl, Hy.
        -- apply kcmp_eq in E. rewrite E. apply Fr. apply in_map. exact Hy.
      * cbn [map]. assert (H1 : forall u v, In u l -> In v (b :: r) -> cmp u v = kcmp (key u) (key (conv v))) by (intros; apply H0; [right|]; assumption).
        rewrite out_left. constructor; [apply IHl; assumption|].
        apply Forall_forall. intros x Hx.
        destruct (join_in l (b :: r) H1 x Hx) as [[y [Hy Ey]]|[y [Hy Ey]]]; rewrite Ey.
        -- apply Fl, Hy.
        -- destruct Hy as [<-|Hy]; [exact E|]. eapply kcmp_trans; [exact E|]. apply Fr. apply in_map. exact Hy.
      * cbn [map]. assert (H1 : forall u v, In u (a :: l) -> In v r -> cmp u v = kcmp (key u) (key (conv v))) by (intros; apply H0; [|right]; assumption).
        assert (E' : kcmp (key (conv b)) (key a) = Lt) by (rewrite kcmp_anti, E; reflexivity).
        rewrite out_right. constructor; [apply IHr; assumption|].
        apply Forall_forall. intros x Hx.
        destruct (join_in (a :: l) r H1 x Hx) as [[y [Hy Ey]]|[y [Hy Ey]]]; rewrite Ey.
        -- destruct Hy as [<-|Hy]; [exact E'|]. eapply kcmp_trans; [exact E'|]. apply Fl, Hy.
        -- apply Fr. apply in_map. exact Hy.
Qed.
End Order.

(** Lexicographic order of description, names of states and (for V4) type. *)
Definition ident := (str * (list str * str))%type.
Definition ident_compare (a b : ident) : comparison :=
  match str_compare (fst a) (fst b) with
  | Eq => match strs_compare (fst (snd a)) (fst (snd b)) with
          | Eq => str_compare (snd (snd a)) (snd (snd b))
          | c => c
          end
  | c => c
  end.
Lemma ident_eq : forall a b, ident_compare a b = Eq <-> a = b.
Proof.
  intros [d [s t]] [d' [s' t']]. unfold ident_compare. cbn [fst snd].
  destruct (str_compare d d') eqn:E1.
  - apply str_compare_eq in E1. subst. destruct (strs_compare s s') eqn:E2.
    + apply strs_compare_eq in E2. subst. rewrite str_compare_eq. split; congruence.
    + split; [discriminate|]. intro H. injection H as -> ->. rewrite strs_compare_refl in E2. discriminate.
    + split; [discriminate|]. intro H. injection H as -> ->. rewrite strs_compare_refl in E2. discriminate.
  - split; [discriminate|]. intro H. injection H as -> -> ->. rewrite str_compare_refl in E1. discriminate.
  - split; [discriminate|]. intro H. injection H as -> -> ->. rewrite str_compare_refl in E1. discriminate.
Qed.
Lemma ident_anti : forall a b, ident_compare b a = CompOpp (ident_compare a b).
Proof.
  intros [d [s t]] [d' [s' t']]. unfold ident_compare. cbn [fst snd].
  rewrite (str_compare_antisym d d'). destruct (str_compare d d'); cbn [CompOpp]; try reflexivity.
  rewrite (strs_compare_antisym s s'). destruct (strs_compare s s'); cbn [CompOpp]; try reflexivity.
  apply str_compare_antisym.
Qed.
Lemma ident_trans : forall a b c, ident_compare a b = Lt -> ident_compare b c = Lt -> ident_compare a c = Lt.
Proof.
  intros [d [s t]] [d' [s' t']] [d2 [s2 t2]]. unfold ident_compare. cbn [fst snd].
  destruct (str_compare d d') eqn:E1; try discriminate.
  - apply str_compare_eq in E1. subst d'.
    destruct (str_compare d d2) eqn:E2; try discriminate; [|reflexivity].
    destruct (strs_compare s s') eqn:E3; try discriminate.
    + apply strs_compare_eq in E3. subst s'. destruct (strs_compare s s2); try discriminate; [|reflexivity].
      apply str_lt_trans.
    + destruct (strs_compare s' s2) eqn:E4; try discriminate.
      * apply strs_compare_eq in E4. subst s2. rewrite E3. reflexivity.
      * rewrite (strs_compare_lt_trans _ _ _ E3 E4). reflexivity.
  - destruct (str_compare d' d2) eqn:E2; try discriminate.
    + apply str_compare_eq in E2. subst d2. rewrite E1. reflexivity.
    + rewrite (str_lt_trans _ _ _ E1 E2). reflexivity.
Qed.

Definition v4_ident (v : v4i) : ident := (v_desc v, (map st_name (v_states v), v4_type_of v)).
(** The interactions of a V4 pact are in strictly ascending order of description, names of
    provider states and type, and have no keys. *)
Definition tidy (l : list v4i) : Prop :=
  strictly v4i ident v4_ident ident_compare l /\ Forall (fun v => v_key v = None) l.
(** Descriptions are not shared between interactions with and without provider states. *)
Definition states_alike (l : list v4i) : Prop :=
  forall a b, In a l -> In b l -> v_desc a = v_desc b -> v_states a = [] -> v_states b = [].

Lemma v4_cmp_ident : forall l a b, states_alike l -> In a l -> In b l -> v_key a = None ->
  v4_cmp a b = ident_compare (v4_ident a) (v4_ident b).
Proof.
  intros l a b U Ha Hb Ka. unfold v4_cmp. rewrite Ka. unfold ident_compare, v4_ident. cbn [fst snd].
  destruct (str_compare (v_desc a) (v_desc b)) eqn:E; try reflexivity.
  apply str_compare_eq in E. destruct (nonempty (v_states a)) eqn:N; [reflexivity|].
  apply nonempty_false in N. rewrite (U a b Ha Hb E N), N. reflexivity.
Qed.
Lemma tidy_by_description : forall l, tidy l -> by_description l.
Proof.
  intros l [H _]. unfold by_description, strictly in *. induction H as [|a l H IH F]; constructor; [exact IH|].
  rewrite Forall_forall in F |- *. intros b Hb C. specialize (F b Hb). unfold ident_compare, v4_ident in F. cbn [fst snd] in F.
  rewrite C in F. discriminate.
Qed.

Definition v4_of (p : pact) : list v4i := match p with PV4 q => vp_ints q | _ => [] end.
Definition is_v4 (p : pact) : Prop := match p with PV4 _ => True | _ => False end.

(** Any history of writes of tidy V4 pacts of the same participants, starting with no file:
    the file then holds exactly the interactions of all of them, each identity once and in order. *)
Theorem C29_histories : forall w hist,
  hist <> [] ->
  (forall p, In p hist -> is_v4 p /\ who p = w /\ tidy (v4_of p)) ->
  states_alike (flat_map v4_of hist) ->
  exists q, written hist None = Some (PV4 q) /\
    tidy (vp_ints q) /\ NoDup (map v4_ident (vp_ints q)) /\
    (forall v, In v (vp_ints q) -> In v (flat_map v4_of hist)) /\
    (forall v, In v (flat_map v4_of hist) -> exists u, In u (vp_ints q) /\ v4_ident u = v4_ident v).
Proof.
  intros w hist NE Hp U.
  assert (Step : forall l0 q p, states_alike l0 -> incl (vp_ints q) l0 -> incl (v4_of p) l0 ->
     vp_who q = w -> tidy (vp_ints q) -> is_v4 p -> who p = w -> tidy (v4_of p) ->
     exists q', write_pact p (Some (PV4 q)) = (Some (PV4 q'), None) /\ vp_who q' = w /\ tidy (vp_ints q') /\
       incl (vp_ints q') (vp_ints q ++ v4_of p) /\
       (forall v, In v (vp_ints q ++ v4_of p) -> exists u, In u (vp_ints q') /\ v4_ident u = v4_ident v)).
  { intros l0 q p Ua Iq Ip Wq [Sq Kq] V4 Wp [Sp Kp]. destruct p as [p|p|p]; try contradiction.
    cbn [v4_of who] in *. unfold write_pact. cbn [merge]. unfold v4_merge. cbn [who].
    rewrite Wq, Wp. rewrite (proj2 (who_eqb_iff _ _) (conj eq_refl eq_refl)).
    cbn [interactions]. rewrite map_map. cbn [as_v4].
    rewrite (all_some_map _ _ _ (fun i => i)); [|reflexivity]. rewrite map_id.
    set (J := merge_join v4_cmp (vp_ints p) (vp_ints q)).
    assert (C : forall a b, In a (vp_ints p) -> In b (vp_ints q) -> v4_cmp a b = ident_compare (v4_ident a) (v4_ident ((fun x => x) b))).
    { intros a b Ha Hb. apply (v4_cmp_ident l0); [exact Ua|apply Ip, Ha|apply Iq, Hb|].
      rewrite Forall_forall in Kp. apply Kp, Ha. }
    assert (Sm : strictly v4i ident v4_ident ident_compare (map take_self J)).
    { apply (join_strict v4i ident v4_ident ident_compare ident_eq ident_anti ident_trans v4i v4_cmp (fun x => x) take_self);
        try (intros; reflexivity); [|exact C|exact Sp|rewrite map_id; exact Sq].
      intros a b. left. reflexivity. }
    assert (Im : incl (map take_self J) (vp_ints q ++ vp_ints p)).
    { intros x Hx. unfold J in Hx. pose proof (merge_join_joined _ _ v4_cmp (vp_ints p) (vp_ints q)) as JJ.
      apply in_or_app. revert Hx. clear -JJ. induction JJ; cbn [map take_self In]; intros Hx; try tauto. }
    assert (Tm : tidy (map take_self J)).
    { split; [exact Sm|]. apply Forall_forall. intros x Hx. apply Im in Hx. apply in_app_or in Hx.
      rewrite Forall_forall in Kq, Kp. destruct Hx; auto. }
    eexists. cbn [as_written vp_ints vp_who vp_meta vp_plugins].
    split; [reflexivity|]. cbn [vp_who vp_ints]. rewrite (sort_sorted _ (tidy_by_description _ Tm)).
    split; [reflexivity|]. split; [exact Tm|]. split; [exact Im|].
    destruct (join_has v4i ident v4_ident ident_compare ident_eq v4i v4_cmp (fun x => x) take_self
                (fun _ => eq_refl) (fun _ => eq_refl) (fun _ _ => or_introl eq_refl) (vp_ints p) (vp_ints q) C) as [IL IR].
    intros v Hv. apply in_app_or in Hv. destruct Hv as [Hv|Hv]; [exact (IR v Hv)|exact (IL v Hv)]. }
  assert (Fin : exists q, written hist None = Some (PV4 q) /\ vp_who q = w /\ tidy (vp_ints q) /\
    incl (vp_ints q) (flat_map v4_of hist) /\
    (forall v, In v (flat_map v4_of hist) -> exists u, In u (vp_ints q) /\ v4_ident u = v4_ident v)).
  { destruct hist as [|p0 hist]; [congruence|]. clear NE.
    assert (G : forall rest q, vp_who q = w -> tidy (vp_ints q) -> incl (vp_ints q) (flat_map v4_of (p0 :: hist)) ->
       incl rest (p0 :: hist) ->
       exists q', written rest (Some (PV4 q)) = Some (PV4 q') /\ vp_who q' = w /\ tidy (vp_ints q') /\
         incl (vp_ints q') (flat_map v4_of (p0 :: hist)) /\
         (forall v, In v (vp_ints q ++ flat_map v4_of rest) -> exists u, In u (vp_ints q') /\ v4_ident u = v4_ident v)).
    { induction rest as [|p rest IH]; intros q Wq Tq Iq Ir.
      - exists q. cbn [flat_map]. rewrite app_nil_r. split; [reflexivity|]. split; [exact Wq|]. split; [exact Tq|].
        split; [exact Iq|]. intros v Hv. exists v. split; [exact Hv|reflexivity].
      - destruct (Hp p (Ir p (or_introl eq_refl))) as [V4 [Wp Tp]].
        assert (Ip : incl (v4_of p) (flat_map v4_of (p0 :: hist))).
        { intros v Hv. apply in_flat_map. exists p. split; [apply Ir; left; reflexivity|exact Hv]. }
        destruct (Step _ q p U Iq Ip Wq Tq V4 Wp Tp) as [q1 [E [W1 [T1 [I1 H1]]]]].
        assert (I1' : incl (vp_ints q1) (flat_map v4_of (p0 :: hist))).
        { intros v Hv. apply I1 in Hv. apply in_app_or in Hv. destruct Hv; auto. }
        destruct (IH q1 W1 T1 I1') as [q2 [E2 [W2 [T2 [I2 H2]]]]]; [intros x Hx; apply Ir; right; exact Hx|].
        exists q2. split.
        { unfold written in *. cbn [fold_left]. rewrite E. exact E2. }
        split; [exact W2|]. split; [exact T2|]. split; [exact I2|].
        intros v Hv. cbn [flat_map] in Hv. rewrite app_assoc in Hv. apply in_app_or in Hv. destruct Hv as [Hv|Hv].
        + destruct (H1 v Hv) as [u [Hu Eu]]. destruct (H2 u) as [u' [Hu' Eu']]; [apply in_or_app; left; exact Hu|].
          exists u'. split; [exact Hu'|congruence].
        + apply H2. apply in_or_app. right. exact Hv. }
    destruct (Hp p0 (or_introl eq_refl)) as [V4 [W0 T0]]. destruct p0 as [p0|p0|p0]; try contradiction.
    cbn [who v4_of] in W0, T0.
    destruct (G hist (mkV4P (vp_who p0) (sort_by_description (vp_ints p0)) (vp_meta p0) (vp_plugins p0))) as [q [E [Wq [Tq [Iq Hq]]]]];
      cbn [vp_who vp_ints].
    - exact W0.
    - rewrite (sort_sorted _ (tidy_by_description _ T0)). exact T0.
    - rewrite (sort_sorted _ (tidy_by_description _ T0)). intros v Hv. cbn [flat_map v4_of]. apply in_or_app. left. exact Hv.
    - intros x Hx. right. exact Hx.
    - exists q. split; [exact E|]. split; [exact Wq|]. split; [exact Tq|]. split; [exact Iq|].
      cbn [vp_ints] in Hq. rewrite (sort_sorted _ (tidy_by_description _ T0)) in Hq. exact Hq. }
  destruct Fin as [q [E [_ [T [I H]]]]]. exists q. split; [exact E|]. split; [exact T|]. split.
  - destruct T as [S0 _]. unfold strictly in S0. clear -S0. induction S0 as [|a l S0 IH F]; cbn [map]; constructor; [|exact IH].
    intro C. apply in_map_iff in C. destruct C as [b [Eb Hb]]. rewrite Forall_forall in F. specialize (F b Hb).
    rewrite <- Eb in F. rewrite (proj2 (ident_eq _ _) eq_refl) in F. discriminate.
  - split; [exact I|exact H].
Qed.

Example C29_history_example :
  let p := PV4 (mkV4P ex_who [ex_v4 None (S_ "a") []; ex_v4 None (S_ "b") [mkState (S_ "s") []]] [] []) in
  let o := PV4 (mkV4P ex_who [ex_v4 None (S_ "b") [mkState (S_ "r") []]; ex_v4 None (S_ "c") []] [] []) in
  (forall x, In x [p; o; p] -> is_v4 x /\ who x = ex_who /\ tidy (v4_of x)) /\
  states_alike (flat_map v4_of [p; o; p]).
Proof.
  cbv zeta. split.
  - intros x [<-|[<-|[<-|[]]]]; (split; [exact I|]; split; [reflexivity|]; split; cbn [v4_of vp_ints];
      [repeat (constructor; [|repeat (constructor; [vm_compute; reflexivity|]); constructor]); constructor
      |repeat (constructor; [reflexivity|]); constructor]).
  - intros a b Ha Hb. cbn in Ha, Hb. intros D E.
    repeat (destruct Ha as [<-|Ha]; [|]); try contradiction; cbn in E; try discriminate E;
    repeat (destruct Hb as [<-|Hb]; [|]); try contradiction; cbn in D; try discriminate D; reflexivity.
Qed.

(** A write that is refused leaves the file as it was, so that it is as if it had not been attempted. *)
Theorem C29_refused_leaves_the_file : forall hist hist' p f e,
  snd (write_pact p (written hist f)) = Some e -> written (hist ++ p :: hist') f = written (hist ++ hist') f.
Proof.
  intros hist hist' p f e H. unfold written in *. rewrite !fold_left_app. cbn [fold_left]. f_equal.
  destruct (fold_left _ hist f) as [g|]; cbn [write_pact] in *; [|discriminate].
  destruct (merge p g); [discriminate|reflexivity|discriminate].
Qed.
