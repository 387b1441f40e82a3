(** Proofs about the V2 form and about rule equality and hashing. *)
From Coq Require Import Ascii String List NArith ZArith Lia Bool Permutation Sorted.
From Verif Require Import Base PathExp SpecPath PathExpProofs PropPath Json MatchingRules SpecRules RulesProofs RulesProofs2.
Import ListNotations.
Open Scope N_scope.
Local Opaque show_N two64.

(** * V2 form of body rules *)
Lemma replace_absent : forall c by_ s, ~ In c s -> replace_char c by_ s = s.
Proof.
  induction s as [|x s IH]; intro F; [reflexivity|]. cbn.
  destruct (N.eqb_spec x c) as [->|]; [exfalso; apply F; left; reflexivity|].
  rewrite IH; [reflexivity|]. intro I. apply F. right; exact I.
Qed.

Definition v2_entry_ok (w : world) (pr : docpath * rulelist) : Prop :=
  path_new (uni_alpha w) (uni_numeric w) (path_expr (fst pr)) = Ok (fst pr) /\
  one_dollar (path_expr (fst pr)) /\
  exists r rest, rl_rules (snd pr) = r :: rest /\ writable w r.

Definition wrap (acc : list (docpath * rulelist)) : matching_rules :=
  match acc with [] => [] | _ => [(CBody, mkCat CBody acc)] end.

Section V2.
Variable w : world.

Lemma wrap_push : forall acc p r', ~ In (path_expr p) (path_texts acc) ->
  mr_update CBody (fun c => Ok (cat_add_rule c p r' And)) (wrap acc) = Ok (wrap (acc ++ [(p, mkRules [r'] And false)])).
Proof.
  intros acc p r' NI. destruct acc as [|a acc].
  - reflexivity.
  - cbn [wrap mr_update]. change (cat_eqb CBody CBody) with true. cbn iota. cbn [bind].
    unfold cat_add_rule. cbn [cat_rules cat_name]. rewrite hm_push_absent by exact NI. reflexivity.
Qed.

Lemma mr_update_ext : forall n f g m, (forall c, f c = g c) -> mr_update n f m = mr_update n g m.
Proof.
  induction m as [|[n' c] m IH]; intro E; cbn; [rewrite E; reflexivity|].
  rewrite E, IH by exact E. reflexivity.
Qed.

Lemma v2_step : forall pr acc, v2_entry_ok w pr -> ~ In (path_expr (fst pr)) (path_texts acc) ->
  exists r', load_v2_entry w (wrap acc)
     (replace_char 36 (S_ "$.body") (path_expr (fst pr)), rl_to_v2_json (snd pr)) =
       Ok (wrap (acc ++ [(fst pr, mkRules [r'] And false)])) /\
    exists r rest, rl_rules (snd pr) = r :: rest /\ same_rule r r'.
Proof.
  intros pr acc (PN & (rest & E & ND) & r & more & R & W) NI.
  destruct (rule_reads w r (json_depth (rule_to_json r)) W (le_n _)) as (r' & Er & S).
  exists r'. split; [|exists r, more; auto].
  assert (K : replace_char 36 (S_ "$.body") (path_expr (fst pr)) = S_ "$.body" ++ rest).
  { rewrite E. change (S_ "$" ++ rest) with (36 :: rest). cbn [replace_char]. rewrite N.eqb_refl.
    rewrite replace_absent by exact ND. reflexivity. }
  rewrite K. unfold load_v2_entry.
  change (starts_with (S_ "$.body") (S_ "$.body" ++ rest)) with true. cbn iota.
  unfold rl_to_v2_json. rewrite R.
  assert (A : add_v2_rule w (wrap acc) CBody (fst pr) (rule_to_json r) = Ok (wrap (acc ++ [(fst pr, mkRules [r'] And false)]))).
  { unfold add_v2_rule. rewrite <- (wrap_push acc (fst pr) r' NI). apply mr_update_ext. intro c.
    unfold cat_rule_from_json, rj_for. rewrite Er. reflexivity. }
  destruct (str_eqb_spec (S_ "$.body" ++ rest) (S_ "$.body")) as [Q|Q].
  - assert (rest = []) as ->.
    { destruct rest; [reflexivity|]. apply (f_equal (@length _)) in Q. cbn in Q. lia. }
    replace path_root with (fst pr); [exact A|].
    rewrite E in PN. cbn in PN. injection PN as <-. reflexivity.
  - change (skipn 6 (S_ "$.body" ++ rest)) with rest.
    unfold path_new_w. rewrite <- E, PN. cbn [bind]. exact A.
Qed.

Lemma v2_fold : forall prs acc, Forall (v2_entry_ok w) prs -> NoDup (map (fun pr => path_expr (fst pr)) prs) ->
  (forall pr, In pr prs -> ~ In (path_expr (fst pr)) (path_texts acc)) ->
  exists res, foldM (load_v2_entry w)
     (map (fun pr => (replace_char 36 (S_ "$.body") (path_expr (fst pr)), rl_to_v2_json (snd pr))) prs) (wrap acc) =
     Ok (wrap (acc ++ res)) /\ Forall2 first_rule_entry prs res.
Proof.
  induction prs as [|pr prs IH]; intros acc F ND Fr.
  - exists []. cbn. rewrite app_nil_r. split; [reflexivity|constructor].
  - inversion F as [|? ? H F']; subst. inversion ND as [|? ? NI ND']; subst.
    destruct (v2_step pr acc H (Fr pr (or_introl eq_refl))) as (r' & E & r & rest & R & S).
    cbn [map foldM]. match goal with |- context [foldM ?f] => fold (foldM f) end.
    rewrite E. cbn [bind].
    destruct (IH (acc ++ [(fst pr, mkRules [r'] And false)])) as (res & E2 & F2).
    + exact F'.
    + exact ND'.
    + intros q Q. unfold path_texts. rewrite map_app, in_app_iff. cbn. intros [I|[I|[]]].
      * exact (Fr q (or_intror Q) I).
      * apply NI. rewrite I. apply (in_map (fun pr => path_expr (fst pr))), Q.
    + exists ((fst pr, mkRules [r'] And false) :: res). split.
      * rewrite E2, <- app_assoc. reflexivity.
      * constructor; [|exact F2]. split; [reflexivity|]. exists r, rest, r'. auto.
Qed.

Lemma v2_roundtrip : forall c, cat_name c = CBody ->
  NoDup (map (fun pr => path_tokens (fst pr)) (cat_rules c)) -> Forall (v2_entry_ok w) (cat_rules c) ->
  exists perm res, matchers_from_json w (Some (mr_to_v2_json [(CBody, c)])) = Ok (wrap res) /\
    Permutation (cat_rules c) perm /\ Forall2 first_rule_entry perm res.
Proof.
  intros [nm prs] Nm ND F. cbn [cat_name cat_rules] in *. subst nm.
  assert (NDe : NoDup (map (fun pr : docpath * rulelist => path_expr (fst pr)) prs)).
  { eapply NoDup_map_transfer; [exact ND|]. intros x y X Y E. rewrite Forall_forall in F.
    destruct (F x X) as (Px & _). destruct (F y Y) as (Py & _). congruence. }
  unfold mr_to_v2_json. cbn [fold_left snd]. unfold cat_to_v2_json. cbn [cat_name cat_rules].
  set (g := fun pr : docpath * rulelist => (replace_char 36 (S_ "$.body") (path_expr (fst pr)), rl_to_v2_json (snd pr))).
  change (map _ prs) with (map g prs).
  pose proof (fold_insert_perm _ _ (fun kv : str * json => fst kv) (fun kv => snd kv) (map g prs) []) as Q.
  rewrite app_nil_r in Q.
  assert (Keys : NoDup (map (fun kv : str * json => fst kv) (map g prs))).
  { rewrite map_map. cbn [fst g]. eapply NoDup_map_transfer; [exact NDe|].
    intros x y X Y E. rewrite Forall_forall in F.
    destruct (F x X) as (_ & (rx & Ex & Nx) & _). destruct (F y Y) as (_ & (ry & Ey & Ny) & _).
    rewrite Ex, Ey in E |- *. change (S_ "$" ++ rx) with (36 :: rx) in *. change (S_ "$" ++ ry) with (36 :: ry) in *. cbn [replace_char] in E.
    rewrite N.eqb_refl, !replace_absent in E by assumption. apply app_inv_head in E. congruence. }
  specialize (Q Keys (fun _ _ H => H)).
  rewrite map_map in Q. apply Permutation_map_inv in Q. destruct Q as (prs' & Em & Pm).
  exists prs'.
  destruct (v2_fold prs' []) as (res & E & F2).
  - eapply Permutation_Forall; eassumption.
  - eapply NoDup_map_perm; eassumption.
  - intros ? ? [].
  - cbn [app wrap] in E. exists res. split; [|split; [exact Pm|exact F2]].
    rewrite Em. unfold matchers_from_json.
    destruct prs' as [|[p rl] prs']; [inversion F2; reflexivity|].
    replace (starts_with _ _) with true; [exact E|].
    assert (In (p, rl) prs) as I by (apply (Permutation_in _ (Permutation_sym Pm)); left; reflexivity).
    rewrite Forall_forall in F. destruct (F _ I) as (_ & (rest & Ex & _) & _).
    cbn [fst] in Ex. cbn [map g fst]. rewrite Ex. reflexivity.
Qed.
End V2.

(** * Equality *)
Section ListEq.
Variable A : Type.
Variable eq : A -> A -> bool.
Lemma list_eqb_refl_on : forall l, Forall (fun x => eq x x = true) l -> list_eqb eq l l = true.
Proof. induction 1 as [|x l H F IH]; cbn; [reflexivity|]. rewrite H, IH. reflexivity. Qed.
Lemma list_eqb_forall2 : forall a b, list_eqb eq a b = true <-> Forall2 (fun x y => eq x y = true) a b.
Proof.
  induction a as [|x a IH]; destruct b as [|y b]; cbn; split; intro H.
  - constructor.
  - reflexivity.
  - discriminate.
  - inversion H.
  - discriminate.
  - inversion H.
  - apply andb_true_iff in H. destruct H as [H1 H2]. constructor; [exact H1|]. apply IH, H2.
  - inversion H; subst. apply andb_true_iff. split; [assumption|]. apply IH. assumption.
Qed.
End ListEq.

Lemma hm_get_in : forall A k (m : list (docpath * A)) v, hm_get k m = Some v ->
  exists k', In (k', v) m /\ path_expr k = path_expr k'.
Proof.
  induction m as [|[k' x] m IH]; cbn; intros v H; [discriminate|].
  unfold path_eqb in H. destruct (str_eqb_spec (path_expr k) (path_expr k')) as [e|n].
  - injection H as ->. exists k'. auto.
  - destruct (IH v H) as (k2 & I & E). exists k2. auto.
Qed.

Lemma hm_get_expr : forall A k k' (m : list (docpath * A)), path_expr k = path_expr k' -> hm_get k m = hm_get k' m.
Proof. induction m as [|[k2 x] m IH]; intro E; cbn; [reflexivity|]. unfold path_eqb. rewrite E, IH by exact E. reflexivity. Qed.

Lemma hm_get_nodup : forall A k v (m : list (docpath * A)), NoDup (map (fun pr => path_expr (fst pr)) m) -> In (k, v) m ->
  hm_get k m = Some v.
Proof.
  induction m as [|[k' x] m IH]; cbn; intros ND I; [contradiction|]. inversion ND; subst.
  unfold path_eqb. destruct (str_eqb_spec (path_expr k) (path_expr k')) as [e|n]; destruct I as [I|I].
  - injection I as -> ->. reflexivity.
  - exfalso. apply H1. rewrite <- e. apply (in_map (fun pr : docpath * A => path_expr (fst pr)) m (k, v)), I.
  - injection I as -> ->. congruence.
  - auto.
Qed.

Section HmEq.
Variable A : Type.
Variable eq : A -> A -> bool.
Notation texts := (map (fun pr : docpath * A => path_expr (fst pr))).

Lemma hm_eqb_entry : forall a b k v, hm_eqb eq a b = true -> In (k, v) a ->
  exists v', hm_get k b = Some v' /\ eq v v' = true.
Proof.
  intros a b k v H I. unfold hm_eqb in H. apply andb_true_iff in H. destruct H as [_ H].
  rewrite forallb_forall in H. specialize (H _ I). cbn in H. destruct (hm_get k b) as [v'|]; [eauto|discriminate].
Qed.

Lemma hm_eqb_len : forall a b, hm_eqb eq a b = true -> length a = length b.
Proof. intros a b H. unfold hm_eqb in H. apply andb_true_iff in H. apply Nat.eqb_eq, H. Qed.

Lemma hm_eqb_intro : forall a b, length a = length b ->
  (forall k v, In (k, v) a -> exists v', hm_get k b = Some v' /\ eq v v' = true) -> hm_eqb eq a b = true.
Proof.
  intros a b L H. unfold hm_eqb. apply andb_true_iff. split; [apply Nat.eqb_eq, L|].
  apply forallb_forall. intros [k v] I. destruct (H k v I) as (v' & -> & E). exact E.
Qed.

Lemma hm_eqb_refl_on : forall m, NoDup (texts m) -> Forall (fun kv => eq (snd kv) (snd kv) = true) m -> hm_eqb eq m m = true.
Proof.
  intros m ND F. apply hm_eqb_intro; [reflexivity|]. intros k v I. exists v. split.
  - apply hm_get_nodup; assumption.
  - rewrite Forall_forall in F. apply (F _ I).
Qed.

(** Every entry of the second map is found in the first. *)
Lemma hm_eqb_back : forall a b, NoDup (texts a) -> NoDup (texts b) -> hm_eqb eq a b = true ->
  forall k v, In (k, v) b -> exists k0 v0, In (k0, v0) a /\ path_expr k0 = path_expr k /\ hm_get k a = Some v0 /\ eq v0 v = true.
Proof.
  intros a b Na Nb H k v I.
  assert (Inc : incl (texts a) (texts b)).
  { intros t T. apply in_map_iff in T. destruct T as ([k0 v0] & E & I0).
    destruct (hm_eqb_entry _ _ _ _ H I0) as (v' & G & _). apply hm_get_in in G. destruct G as (k' & I' & E').
    apply in_map_iff. exists (k', v'). cbn in *. split; [congruence|exact I']. }
  assert (Inc2 : incl (texts b) (texts a)).
  { apply NoDup_length_incl; [exact Na| |exact Inc]. rewrite !map_length. rewrite (hm_eqb_len _ _ H). apply le_n. }
  assert (T : In (path_expr k) (texts a)).
  { apply Inc2. apply in_map_iff. exists (k, v). auto. }
  apply in_map_iff in T. destruct T as ([k0 v0] & E & I0). cbn [fst] in E.
  exists k0, v0. split; [exact I0|]. split; [exact E|]. split.
  - rewrite (hm_get_expr _ k k0) by congruence. apply hm_get_nodup; assumption.
  - destruct (hm_eqb_entry _ _ _ _ H I0) as (v' & G & Q).
    rewrite (hm_get_expr _ k0 k) in G by exact E. rewrite (hm_get_nodup _ k v b Nb I) in G. congruence.
Qed.
End HmEq.

(** * Equality of rules *)
Definition rl_all (P : rule -> Prop) (rl : rulelist) := Forall P (rl_rules rl).

Lemma cat_eqb_refl : forall n, cat_eqb n n = true.
Proof. intros []; reflexivity. Qed.

Definition item_eqb (x y : rule + str) : bool :=
  match x, y with inl r, inl r' => rule_eqb r r' | inr n, inr n' => str_eqb n n' | _, _ => false end.

Lemma rule_eqb_refl : forall r, rep_ok r -> rule_eqb r r = true.
Proof.
  refine (rule_ind' (fun r => rep_ok r -> rule_eqb r r = true) _ _ _ _).
  - intro r. destruct r; try exact I; intros _; cbn; rewrite ?N.eqb_refl, ?str_eqb_refl; reflexivity.
  - intros vs H W. inversion W as [? L|? Wh Wn| |]; subst; [contradiction|]. cbn [rep_here] in Wh.
    cbn [rule_eqb]. apply list_eqb_refl_on. apply Forall_forall. intros [i c] I.
    rewrite Forall_forall in H, Wh, Wn. specialize (H _ I). specialize (Wh _ I). specialize (Wn _ I). cbn [snd] in *.
    rewrite N.eqb_refl. cbn [andb]. unfold cat_eqb_with. rewrite cat_eqb_refl. cbn [andb].
    apply hm_eqb_refl_on; [exact Wh|]. apply Forall_forall. intros pr Ip. unfold rl_eqb_with.
    destruct (rl_logic (snd pr)); cbn [logic_eqb andb]; apply list_eqb_refl_on; apply Forall_forall; intros r Ir;
      unfold cat_all in H; rewrite Forall_forall in H, Wn; specialize (H _ Ip); specialize (Wn _ Ip);
      rewrite Forall_forall in H, Wn; apply H; [exact Ir|apply Wn, Ir|exact Ir|apply Wn, Ir].
  - intros d H W. inversion W as [? L| |? Wh Wn|]; subst; [contradiction|].
    cbn [rule_eqb]. unfold def_eqb_with. rewrite !str_eqb_refl, N.eqb_refl. cbn [andb].
    rewrite andb_true_r. apply list_eqb_refl_on. apply Forall_forall. intros [r|n] I; [|apply str_eqb_refl].
    unfold def_all in H. rewrite Forall_forall in H. apply (H _ I). apply Wn, I.
  - intros d H W. inversion W as [? L| | |? Wh Wn]; subst; [contradiction|].
    cbn [rule_eqb]. unfold def_eqb_with. rewrite !str_eqb_refl, N.eqb_refl. cbn [andb].
    rewrite andb_true_r. apply list_eqb_refl_on. apply Forall_forall. intros [r|n] I; [|apply str_eqb_refl].
    unfold def_all in H. rewrite Forall_forall in H. apply (H _ I). apply Wn, I.
Qed.

(** Inversion of equality against a given left operand. *)
Lemma rule_eqb_arr_inv : forall vs b, rule_eqb (RArrayContains vs) b = true -> exists vs', b = RArrayContains vs' /\
  Forall2 (fun u v => fst u = fst v /\ cat_name (snd u) = cat_name (snd v) /\
     hm_eqb (rl_eqb_with rule_eqb) (cat_rules (snd u)) (cat_rules (snd v)) = true) vs vs'.
Proof.
  intros vs b H. destruct b; try discriminate H. cbn [rule_eqb] in H.
  exists variants. split; [reflexivity|]. apply list_eqb_forall2 in H.
  eapply Forall2_impl'; [|exact H]. intros [i c] [i' c'] E. apply andb_true_iff in E. destruct E as [E1 E2].
  unfold cat_eqb_with in E2. apply andb_true_iff in E2. destruct E2 as [E2 E3].
  apply N.eqb_eq in E1. apply cat_eqb_eq in E2. auto.
Qed.

Lemma def_eqb_iff : forall d d', def_eqb_with rule_eqb d d' = true <->
  def_value d = def_value d' /\ def_type d = def_type d' /\ def_expr d = def_expr d' /\
  Forall2 (fun x y => item_eqb x y = true) (def_rules d) (def_rules d').
Proof.
  intros d d'. unfold def_eqb_with. rewrite !andb_true_iff, list_eqb_forall2, !str_eqb_eq, N.eqb_eq.
  assert (V : vt_index (def_type d) = vt_index (def_type d') <-> def_type d = def_type d').
  { destruct (def_type d), (def_type d'); cbn; split; intro E; try reflexivity; discriminate. }
  rewrite V. unfold item_eqb. tauto.
Qed.

Lemma arr_intro : forall vs vs',
  Forall2 (fun u v => fst u = fst v /\ cat_name (snd u) = cat_name (snd v) /\
     hm_eqb (rl_eqb_with rule_eqb) (cat_rules (snd u)) (cat_rules (snd v)) = true) vs vs' ->
  rule_eqb (RArrayContains vs) (RArrayContains vs') = true.
Proof.
  intros vs vs' F. cbn [rule_eqb]. apply list_eqb_forall2. eapply Forall2_impl'; [|exact F].
  intros [i c] [i' c'] (E1 & E2 & E3). cbn [fst snd] in *. subst. rewrite N.eqb_refl. unfold cat_eqb_with.
  rewrite E2, cat_eqb_refl, E3. reflexivity.
Qed.

Lemma Forall2_in_l : forall A B (R : A -> B -> Prop) l l' x, Forall2 R l l' -> In x l -> exists y, In y l' /\ R x y.
Proof.
  induction 1 as [|a b l l' H F IH]; intros I; [contradiction|].
  destruct I as [->|I]; [exists b; split; [left; reflexivity|assumption]|].
  destruct (IH I) as (y & Y & Q). exists y. split; [right; exact Y|exact Q].
Qed.

Lemma Forall2_sym_on : forall A (R : A -> A -> Prop) l l', Forall2 R l l' ->
  (forall x y, In x l -> In y l' -> R x y -> R y x) -> Forall2 R l' l.
Proof.
  induction 1 as [|a b l l' H F IH]; intro S; constructor.
  - apply S; [left; reflexivity|left; reflexivity|exact H].
  - apply IH. intros x y X Y. apply S; right; assumption.
Qed.

Lemma Forall2_trans_on : forall A (R : A -> A -> Prop) a b, Forall2 R a b -> forall c, Forall2 R b c ->
  (forall x y z, In x a -> In y b -> In z c -> R x y -> R y z -> R x z) -> Forall2 R a c.
Proof.
  induction 1 as [|x y a b H F IH]; intros c G T; inversion G; subst; constructor.
  - eapply T; [left; reflexivity|left; reflexivity|left; reflexivity|exact H|assumption].
  - apply IH; [assumption|]. intros ? ? ? X Y Z. apply T; right; assumption.
Qed.

Lemma logic_eqb_eq : forall a b, logic_eqb a b = true <-> a = b.
Proof. intros [] []; cbn; split; congruence. Qed.

Lemma rl_eqb_iff : forall a b : rulelist, rl_eqb_with rule_eqb a b = true <->
  rl_logic a = rl_logic b /\ Forall2 (fun x y => rule_eqb x y = true) (rl_rules a) (rl_rules b).
Proof. intros a b. unfold rl_eqb_with. rewrite andb_true_iff, logic_eqb_eq, list_eqb_forall2. reflexivity. Qed.

Lemma rep_arr : forall vs, rep_ok (RArrayContains vs) ->
  forall v, In v vs -> NoDup (path_texts (cat_rules (snd v))) /\
    forall pr, In pr (cat_rules (snd v)) -> forall r, In r (rl_rules (snd pr)) -> rep_ok r.
Proof.
  intros vs W v I. inversion W as [? L|? Wh Wn| |]; subst; [contradiction|]. cbn [rep_here] in Wh.
  rewrite Forall_forall in Wh, Wn. split; [apply Wh, I|].
  intros pr Ip r Ir. specialize (Wn _ I). rewrite Forall_forall in Wn. specialize (Wn _ Ip). rewrite Forall_forall in Wn. exact (Wn _ Ir).
Qed.
Lemma rep_def : forall d, rep_ok (REachKey d) \/ rep_ok (REachValue d) -> forall r, In (inl r) (def_rules d) -> rep_ok r.
Proof.
  intros d [W|W]; [inversion W as [? L| |? Wh Wn|]|inversion W as [? L| | |? Wh Wn]]; subst; try contradiction; exact Wn.
Qed.

Lemma items_sym : forall l l', Forall (item_all (fun a => rep_ok a -> forall b, rep_ok b -> rule_eqb a b = true -> rule_eqb b a = true)) l ->
  (forall r, In (inl r) l -> rep_ok r) -> (forall r, In (inl r) l' -> rep_ok r) ->
  Forall2 (fun x y => item_eqb x y = true) l l' -> Forall2 (fun x y => item_eqb x y = true) l' l.
Proof.
  intros l l' IH W W' F. apply Forall2_sym_on; [exact F|].
  intros [r|n] [r'|n'] X Y E; cbn [item_eqb] in *; try discriminate.
  - rewrite Forall_forall in IH. apply (IH _ X); auto.
  - rewrite str_eqb_sym. exact E.
Qed.

Lemma rule_eqb_sym : forall a, rep_ok a -> forall b, rep_ok b -> rule_eqb a b = true -> rule_eqb b a = true.
Proof.
  refine (rule_ind' (fun a => rep_ok a -> forall b, rep_ok b -> rule_eqb a b = true -> rule_eqb b a = true) _ _ _ _).
  - intro r. destruct r; try exact I; intros _ b _ E; destruct b; try discriminate E; cbn [rule_eqb] in *;
      try (rewrite str_eqb_sym; exact E); try (rewrite N.eqb_sym; exact E); try reflexivity.
    rewrite (N.eqb_sym min0), (N.eqb_sym max0). exact E.
  - intros vs H W b Wb E. apply rule_eqb_arr_inv in E. destruct E as (vs' & -> & F).
    apply arr_intro. apply Forall2_sym_on; [exact F|].
    intros [i c] [i' c'] X Y (E1 & E2 & E3). cbn [fst snd] in *. subst i'. split; [reflexivity|]. split; [congruence|].
    destruct (rep_arr _ W _ X) as (Na & Ra). destruct (rep_arr _ Wb _ Y) as (Nb & Rb). cbn [snd] in *.
    apply hm_eqb_intro; [symmetry; apply (hm_eqb_len _ _ _ _ E3)|].
    intros k v Iv. destruct (hm_eqb_back _ _ _ _ Na Nb E3 k v Iv) as (k0 & v0 & I0 & Ek & G & Q).
    exists v0. split; [exact G|]. apply rl_eqb_iff in Q. apply rl_eqb_iff. destruct Q as (Q1 & Q2).
    split; [congruence|]. apply Forall2_sym_on; [exact Q2|].
    intros x y Xx Yy Exy. rewrite Forall_forall in H. specialize (H _ X). unfold cat_all in H. rewrite Forall_forall in H.
    specialize (H _ I0). rewrite Forall_forall in H. apply (H _ Xx); [apply (Ra _ I0), Xx|apply (Rb _ Iv), Yy|exact Exy].
  - intros d H W b Wb E. destruct b; try discriminate E. cbn [rule_eqb] in *.
    apply def_eqb_iff in E. apply def_eqb_iff. destruct E as (E1 & E2 & E3 & F). repeat split; try congruence.
    apply items_sym; try assumption; apply rep_def; auto.
  - intros d H W b Wb E. destruct b; try discriminate E. cbn [rule_eqb] in *.
    apply def_eqb_iff in E. apply def_eqb_iff. destruct E as (E1 & E2 & E3 & F). repeat split; try congruence.
    apply items_sym; try assumption; apply rep_def; auto.
Qed.

Lemma items_trans : forall l l' l'', Forall (item_all (fun a => forall b c, rule_eqb a b = true -> rule_eqb b c = true -> rule_eqb a c = true)) l ->
  Forall2 (fun x y => item_eqb x y = true) l l' -> Forall2 (fun x y => item_eqb x y = true) l' l'' ->
  Forall2 (fun x y => item_eqb x y = true) l l''.
Proof.
  intros l l' l'' IH F G. eapply Forall2_trans_on; [exact F|exact G|].
  intros [r|n] [r'|n'] [r''|n''] X Y Z E1 E2; cbn [item_eqb] in *; try discriminate.
  - rewrite Forall_forall in IH. apply (IH _ X r' r''); auto.
  - apply str_eqb_eq in E1. apply str_eqb_eq in E2. apply str_eqb_eq. congruence.
Qed.

Lemma rule_eqb_trans : forall a b c, rule_eqb a b = true -> rule_eqb b c = true -> rule_eqb a c = true.
Proof.
  refine (rule_ind' (fun a => forall b c, rule_eqb a b = true -> rule_eqb b c = true -> rule_eqb a c = true) _ _ _ _).
  - intro r. destruct r; try exact I; intros b c E1 E2; destruct b; try discriminate E1; destruct c; try discriminate E2;
      cbn [rule_eqb] in *; rewrite ?andb_true_iff, ?str_eqb_eq, ?N.eqb_eq in *; try reflexivity; try congruence.
    destruct E1, E2. split; congruence.
  - intros vs H b c E1 E2. apply rule_eqb_arr_inv in E1. destruct E1 as (vs' & -> & F1).
    apply rule_eqb_arr_inv in E2. destruct E2 as (vs'' & -> & F2).
    apply arr_intro. eapply Forall2_trans_on; [exact F1|exact F2|].
    intros x y z X Y Z (A1 & A2 & A3) (B1 & B2 & B3). split; [congruence|]. split; [congruence|].
    apply hm_eqb_intro; [rewrite (hm_eqb_len _ _ _ _ A3); apply (hm_eqb_len _ _ _ _ B3)|].
    intros k v I. destruct (hm_eqb_entry _ _ _ _ _ _ A3 I) as (v' & G & Q).
    destruct (hm_get_in _ _ _ _ G) as (k' & I' & Ek).
    destruct (hm_eqb_entry _ _ _ _ _ _ B3 I') as (v'' & G' & Q').
    exists v''. split; [rewrite (hm_get_expr _ k k') by exact Ek; exact G'|].
    apply rl_eqb_iff in Q. apply rl_eqb_iff in Q'. apply rl_eqb_iff. destruct Q as (Q1 & Q2), Q' as (Q1' & Q2').
    split; [congruence|]. eapply Forall2_trans_on; [exact Q2|exact Q2'|].
    intros r r' r'' R _ _. rewrite Forall_forall in H. specialize (H _ X). unfold cat_all in H. rewrite Forall_forall in H.
    specialize (H _ I). rewrite Forall_forall in H. apply (H _ R).
  - intros d H b c E1 E2. destruct b; try discriminate E1. destruct c; try discriminate E2. cbn [rule_eqb] in *.
    apply def_eqb_iff in E1. apply def_eqb_iff in E2. apply def_eqb_iff.
    destruct E1 as (? & ? & ? & ?), E2 as (? & ? & ? & ?). repeat split; try congruence.
    eapply items_trans; eassumption.
  - intros d H b c E1 E2. destruct b; try discriminate E1. destruct c; try discriminate E2. cbn [rule_eqb] in *.
    apply def_eqb_iff in E1. apply def_eqb_iff in E2. apply def_eqb_iff.
    destruct E1 as (? & ? & ? & ?), E2 as (? & ? & ? & ?). repeat split; try congruence.
    eapply items_trans; eassumption.
Qed.

(** * Hashing *)
Lemma fold_insert_get : forall A B (f : A -> str) (g : A -> B) l m k, NoDup (map f l) ->
  obj_get k (fold_left (fun m x => obj_insert (f x) (g x) m) l m) =
  match find (fun x => str_eqb k (f x)) l with Some x => Some (g x) | None => obj_get k m end.
Proof.
  induction l as [|x l IH]; intros m k ND; [reflexivity|]. inversion ND; subst. cbn [fold_left find].
  rewrite IH by assumption. rewrite obj_insert_get.
  destruct (str_eqb_spec k (f x)) as [e|n]; [|reflexivity].
  destruct (find (fun x0 => str_eqb k (f x0)) l) eqn:F; [|reflexivity].
  apply find_some in F. destruct F as [I E]. apply str_eqb_eq in E. exfalso. apply H1.
  rewrite <- e, E. apply in_map, I.
Qed.

Lemma rule_hash_ok : forall a, rep_ok a -> forall b, rep_ok b -> rule_eqb a b = true -> rule_hash a = rule_hash b.
Proof.
  refine (rule_ind' (fun a => rep_ok a -> forall b, rep_ok b -> rule_eqb a b = true -> rule_hash a = rule_hash b) _ _ _ _).
  - intro r. destruct r; try exact I; intros _ b _ E; destruct b; try discriminate E; cbn [rule_eqb] in *;
      rewrite ?andb_true_iff, ?str_eqb_eq, ?N.eqb_eq in E; try destruct E; subst; reflexivity.
  - intros vs H W b Wb E. apply rule_eqb_arr_inv in E. destruct E as (vs' & -> & F).
    cbn [rule_hash rule_tag]. f_equal.
    assert (G : forall u v, In u vs -> In v vs' -> fst u = fst v /\ cat_name (snd u) = cat_name (snd v) /\
       hm_eqb (rl_eqb_with rule_eqb) (cat_rules (snd u)) (cat_rules (snd v)) = true ->
       (let (i, c) := u in HNum i :: cat_hash_with rule_hash c) = (let (i, c) := v in HNum i :: cat_hash_with rule_hash c)).
    { intros [i c] [i' c'] X Y (E1 & E2 & E3). cbn [fst snd] in *. subst i'. f_equal.
      unfold cat_hash_with. rewrite E2. f_equal. f_equal.
      destruct (rep_arr _ W _ X) as (Na & Ra). destruct (rep_arr _ Wb _ Y) as (Nb & Rb). cbn [snd] in *.
      unfold obj_of_list.
      set (fs := fun kv : str * list hash_item => fst kv). set (gs := fun kv : str * list hash_item => snd kv).
      assert (K : forall c : category, map fs (map (fun pr : docpath * rulelist => (path_expr (fst pr), rl_hash_with rule_hash (snd pr))) (cat_rules c)) = path_texts (cat_rules c)).
      { intro c0. rewrite map_map. reflexivity. }
      apply sorted_ext.
      - apply (fold_insert_sorted _ _ fs gs). constructor.
      - apply (fold_insert_sorted _ _ fs gs). constructor.
      - intro k. rewrite (fold_insert_get _ _ fs gs), (fold_insert_get _ _ fs gs) by (rewrite K; assumption).
        destruct (find _ (map _ (cat_rules c))) as [[t h]|] eqn:F1.
        + apply find_some in F1. destruct F1 as [I1 Ek]. cbn [fs fst] in Ek. apply str_eqb_eq in Ek. subst t.
          apply in_map_iff in I1. destruct I1 as ([p rl] & Eq & I1). cbn [fst snd] in Eq. injection Eq as Eq1 Eq2.
          destruct (hm_eqb_entry _ _ _ _ _ _ E3 I1) as (rl' & G & Q).
          destruct (hm_get_in _ _ _ _ G) as (p' & I' & Ep).
          destruct (find _ (map _ (cat_rules c'))) as [[t' h']|] eqn:F2.
          * apply find_some in F2. destruct F2 as [I2 Ek]. cbn [fs fst] in Ek. apply str_eqb_eq in Ek. subst t'.
            apply in_map_iff in I2. destruct I2 as ([p2 rl2] & Eq & I2). cbn [fst snd] in Eq. injection Eq as Eq3 Eq4.
            assert (rl2 = rl') as ->.
            { pose proof (hm_get_nodup _ _ _ _ Nb I2) as G2. rewrite (hm_get_expr _ p2 p) in G2 by congruence. congruence. }
            cbn [gs snd]. f_equal. subst h h'. apply rl_eqb_iff in Q. destruct Q as (Q1 & Q2). unfold rl_hash_with. rewrite Q1. f_equal.
            rewrite Forall_forall in H. specialize (H _ X). unfold cat_all in H. rewrite Forall_forall in H. specialize (H _ I1).
            cbn [snd] in *. specialize (Ra _ I1). specialize (Rb _ I2). cbn [snd] in *.
            clear - H Q2 Ra Rb. induction Q2 as [|x y l l' E F IH]; [reflexivity|]. cbn [flat_map].
            inversion H; subst. rewrite (H2 (Ra x (or_introl eq_refl)) y (Rb y (or_introl eq_refl)) E).
            f_equal. apply IH; [assumption| |]; intros; [apply Ra|apply Rb]; right; assumption.
          * exfalso. pose proof (find_none _ _ F2 (path_expr p', rl_hash_with rule_hash rl')) as FN.
            cbn [fs fst] in FN. rewrite <- Ep, Eq1, str_eqb_refl in FN. discriminate FN.
            apply in_map_iff. exists (p', rl'). cbn. split; [congruence|exact I'].
        + destruct (find _ (map _ (cat_rules c'))) as [[t' h']|] eqn:F2; [|reflexivity].
          apply find_some in F2. destruct F2 as [I2 Ek]. cbn [fs fst] in Ek. apply str_eqb_eq in Ek. subst t'.
          apply in_map_iff in I2. destruct I2 as ([p2 rl2] & Eq & I2). cbn [fst snd] in Eq. injection Eq as Eq3 Eq4.
          destruct (hm_eqb_back _ _ _ _ Na Nb E3 _ _ I2) as (k0 & v0 & I0 & Ek & _ & _).
          exfalso. pose proof (find_none _ _ F1 (path_expr k0, rl_hash_with rule_hash v0)) as FN.
          cbn [fs fst] in FN. rewrite Ek, Eq3, str_eqb_refl in FN. discriminate FN.
          apply in_map_iff. exists (k0, v0). cbn. split; [congruence|exact I0]. }
    clear - F G. induction F as [|x y l l' E F IH]; [reflexivity|]. cbn [flat_map]. f_equal.
    + apply G; [left; reflexivity|left; reflexivity|exact E].
    + apply IH. intros u v U V. apply G; right; assumption.
  - intros d H W b Wb E. destruct b; try discriminate E. reflexivity.
  - intros d H W b Wb E. destruct b; try discriminate E. reflexivity.
Qed.

(** * Equal rules mean the same, status code rules aside *)
Lemma hm_eqb_perm : forall A (eq : A -> A -> bool) a b,
  NoDup (map (fun pr => path_expr (fst pr)) a) -> NoDup (map (fun pr => path_expr (fst pr)) b) -> hm_eqb eq a b = true ->
  exists perm, Permutation a perm /\
    Forall2 (fun x y => path_expr (fst x) = path_expr (fst y) /\ eq (snd x) (snd y) = true /\ In x a /\ In y b) perm b.
Proof.
  intros A eq a b Na Nb H.
  assert (exists perm, Forall2 (fun y x => In x a /\ path_expr (fst x) = path_expr (fst y)) b perm /\
           Forall2 (fun y x => eq (snd x) (snd y) = true) b perm) as (perm & F1 & F2).
  { apply Forall2_exists. intros [k v] I. destruct (hm_eqb_back _ _ _ _ Na Nb H k v I) as (k0 & v0 & I0 & Ek & _ & Q).
    exists (k0, v0). repeat split; assumption. }
  exists perm. split.
  - apply NoDup_Permutation_bis.
    + eapply NoDup_map_inv. exact Na.
    + rewrite (hm_eqb_len _ _ _ _ H). clear - F1. induction F1; cbn; lia.
    + assert (T : map (fun pr => path_expr (fst pr)) perm = map (fun pr => path_expr (fst pr)) b).
      { clear - F1. induction F1 as [|y x l l' (_ & E) F IH]; [reflexivity|]. cbn. congruence. }
      intros x X.
      destruct (hm_eqb_entry _ _ _ _ (fst x) (snd x) H) as (v' & G & _); [destruct x; exact X|].
      apply hm_get_in in G. destruct G as (k' & I' & Ek).
      destruct (Forall2_in_l _ _ _ _ _ _ F1 I') as (x' & X' & Ix & Ex). cbn [fst] in Ex.
      rewrite (NoDup_map_inv' _ _ (fun pr => path_expr (fst pr)) a x x' Na X Ix) by congruence. exact X'.
  - assert (S : Forall (fun y => In y b) b) by (apply Forall_forall; auto).
    clear - F1 F2 S. revert S. generalize b at 1 3. intros bb S.
    revert F2 S. induction F1 as [|y x l l' (I & E) F IH]; intros F2 S; [constructor|].
    inversion F2; subst. inversion S; subst. constructor.
    + repeat split; assumption.
    + apply IH; assumption.
Qed.

Lemma Forall2_with_in : forall A B (R : A -> B -> Prop) l l', Forall2 R l l' ->
  Forall2 (fun x y => In x l /\ In y l' /\ R x y) l l'.
Proof.
  induction 1 as [|x y l l' E F IH]; constructor.
  - repeat split; [left; reflexivity|left; reflexivity|exact E].
  - eapply Forall2_impl'; [|exact IH]. intros a b (X & Y & Q). repeat split; [right; exact X|right; exact Y|exact Q].
Qed.

Lemma items_same : forall l l', Forall (item_all (fun a => rep_ok a -> plain_rule a -> forall b, rep_ok b -> plain_rule b -> rule_eqb a b = true -> same_rule a b)) l ->
  (forall r, In (inl r) l -> rep_ok r) -> (forall r, In (inl r) l' -> rep_ok r) ->
  (forall r, In (inl r) l -> plain_rule r) -> (forall r, In (inl r) l' -> plain_rule r) ->
  Forall2 (fun x y => item_eqb x y = true) l l' -> Forall2 (item_rel same_rule) l l'.
Proof.
  intros l l' IH W W' P P' F. induction F as [|x y l l' E F IHF]; constructor.
  - inversion IH as [|? ? I1 I2]; subst. destruct x as [r|n], y as [r'|n']; cbn [item_eqb] in E; try discriminate.
    + constructor. apply I1; auto using in_eq.
    + apply str_eqb_eq in E. subst. constructor.
  - inversion IH; subst. apply IHF; try assumption; intros r R; [apply W|apply W'|apply P|apply P']; right; exact R.
Qed.

Lemma rule_eqb_same : forall a, rep_ok a -> plain_rule a -> forall b, rep_ok b -> plain_rule b ->
  rule_eqb a b = true -> same_rule a b.
Proof.
  refine (rule_ind' (fun a => rep_ok a -> plain_rule a -> forall b, rep_ok b -> plain_rule b -> rule_eqb a b = true -> same_rule a b) _ _ _ _).
  - intro r. destruct r; try exact I; intros _ P b _ _ E; destruct b; try discriminate E; cbn [rule_eqb] in *;
      rewrite ?andb_true_iff, ?str_eqb_eq, ?N.eqb_eq in E; try destruct E; subst; try (constructor; exact I).
    apply rule_all_here in P. contradiction.
  - intros vs H W P b Wb Pb E. apply rule_eqb_arr_inv in E. destruct E as (vs' & -> & F). constructor.
    pose proof (Forall2_with_in _ _ _ _ _ F) as F'.
    clear F. eapply Forall2_impl'; [|exact F'].
    intros [i c] [i' c'] (X & Y & E1 & E2 & E3). cbn [fst snd] in *. split; [exact E1|]. split; [exact E2|].
    destruct (rep_arr _ W _ X) as (Na & Ra). destruct (rep_arr _ Wb _ Y) as (Nb & Rb). cbn [snd] in *.
    destruct (hm_eqb_perm _ _ _ _ Na Nb E3) as (perm & Pm & Fp). exists perm. split; [exact Pm|].
    eapply Forall2_impl'; [|exact Fp]. intros pr pr' (T & Q & I1 & I2).
    inversion P as [? L|? Ph Pn| |]; subst; [contradiction|]. inversion Pb as [? L|? Pbh Pbn| |]; subst; [contradiction|].
    cbn [plain_here] in Ph, Pbh. rewrite Forall_forall in Ph, Pbh, Pn, Pbn, H.
    specialize (Ph _ X). specialize (Pbh _ Y). specialize (Pn _ X). specialize (Pbn _ Y). specialize (H _ X).
    unfold cat_all in H. cbn [snd] in *.
    rewrite Forall_forall in Ph, Pbh, Pn, Pbn, H.
    specialize (Ph _ I1). specialize (Pbh _ I2). specialize (Pn _ I1). specialize (Pbn _ I2). specialize (H _ I1).
    specialize (Ra _ I1). specialize (Rb _ I2).
    apply rl_eqb_iff in Q. destruct Q as (Q1 & Q2).
    split; [apply build_expr_inj; congruence|]. split; [exact Q1|].
    clear - Q2 H Pn Pbn Ra Rb. induction Q2 as [|x y l l' E F IH]; constructor.
    + inversion H; inversion Pn; inversion Pbn; subst. apply H2; auto using in_eq.
    + inversion H; inversion Pn; inversion Pbn; subst. apply IH; try assumption; intros; [apply Ra|apply Rb]; right; assumption.
  - intros d H W P b Wb Pb E. destruct b; try discriminate E. cbn [rule_eqb] in *.
    apply def_eqb_iff in E. destruct E as (E1 & E2 & E3 & F). constructor; try assumption.
    inversion P as [? L| |? Ph Pn|]; subst; [contradiction|]. inversion Pb as [? L| |? Pbh Pbn|]; subst; [contradiction|].
    apply items_same; try assumption; apply rep_def; auto.
  - intros d H W P b Wb Pb E. destruct b; try discriminate E. cbn [rule_eqb] in *.
    apply def_eqb_iff in E. destruct E as (E1 & E2 & E3 & F). constructor; try assumption.
    inversion P as [? L| | |? Ph Pn]; subst; [contradiction|]. inversion Pb as [? L| | |? Pbh Pbn]; subst; [contradiction|].
    apply items_same; try assumption; apply rep_def; auto.
Qed.
