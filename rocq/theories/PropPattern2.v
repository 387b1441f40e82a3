(** Theorems about the patterns of the consumer DSL (C91: what a pattern accepts). *)
From Coq Require Import Ascii String List Arith NArith ZArith Lia Bool Permutation Sorted.
From Verif Require Import Base PathExp PathExpProofs SpecPath PropPath Json MatchingRules SpecRules Matchers JsonCompare SpecMatch SpecValues
  CompareProofs CompareProofs2 CompareProofs3 SpecBody BodyProofs PropBody Pattern SpecPattern PatternProofs PropPattern.
Import ListNotations.
Open Scope N_scope.
Local Opaque show_N.

Lemma rel_depth : forall p t r, In (t, r) (rel p) -> (length t <= depth p)%nat.
Proof.
  induction p using pattern_ind'; intros t r I.
  - destruct I.
  - apply rel_array_in in I. destruct I as (i & x & u & E & -> & I). apply nth_error_In in E. specialize (H x E u r I). cbn [length depth].
    apply le_n_S. clear I. induction l as [|y l IH]; [destruct E|]. cbn [map fold_right]. destruct E as [->|E]; [lia|].
    assert (length u <= fold_right Nat.max 0 (map depth l))%nat; [|lia]. apply IH. exact E.
  - apply rel_object_in in I. destruct I as (k & x & u & E & -> & I). specialize (H k x E u r I). cbn [length depth].
    apply le_n_S. clear I. induction fs as [|[k' y] fs IH]; [destruct E|]. cbn [map fold_right snd]. destruct E as [E|E]; [injection E as -> ->; lia|].
    assert (length u <= fold_right Nat.max 0 (map (fun kv => depth (snd kv)) fs))%nat; [|lia]. apply IH. exact E.
  - destruct I as [E|I]; [injection E as <- <-; cbn; lia|]. cbn [depth]. eapply IHp, I.
  - cbn [depth]. destruct I as [E|[E|I]]; try (injection E as <- <-; cbn; lia). apply in_shift in I. destruct I as (v & -> & I).
    apply IHp in I. cbn [length]. lia.
  - destruct I as [E|[]]; injection E as <- <-; cbn; lia.
  - destruct I as [E|[]]; injection E as <- <-; cbn; lia.
  - destruct I.
Qed.
(** Rule paths of one step are wildcards only in the excluded nesting. *)
Lemma rel_root_ruled : forall p r, In ([], r) (rel p) -> ruled p.
Proof.
  intros p r I. destruct p; try exact Logic.I; try destruct I.
  - apply rel_array_in in I. destruct I as (i & x & u & _ & E & _). discriminate.
  - apply rel_object_in in I. destruct I as (k & x & u & _ & E & _). discriminate.
Qed.
Lemma rel_one_step : forall p x r, ~ nested_each_like p -> In ([x], r) (rel p) -> exact_steps [x] = 1%nat.
Proof.
  induction p using pattern_ind'; intros x r N I; try (destruct I; fail).
  - apply rel_array_in in I. destruct I as (i & y & u & _ & E & _). injection E as -> _. reflexivity.
  - apply rel_object_in in I. destruct I as (k & y & u & _ & E & _). injection E as -> _. reflexivity.
  - destruct I as [E|I]; [discriminate|]. eapply IHp; [|exact I]. exact N.
  - destruct I as [E|[E|I]]; try discriminate. apply in_shift in I. destruct I as (v & E & I). injection E as -> <-.
    exfalso. apply N. exists p, n. split; [reflexivity|]. eapply rel_root_ruled, I.
  - destruct I as [E|[]]; discriminate.
  - destruct I as [E|[]]; discriminate.
Qed.

Section Node.
Variable w : world.
Variable c : context.
Variable R : list (list token * rule).
Hypothesis CB : cat_name (matchers c) = CBody.
Hypothesis D : describes (cat_rules (matchers c)) R.
Hypothesis Si : forall t r, In (t, r) R -> simple r.
Hypothesis Len : forall t r, In (t, r) R -> (length t <= 57)%nat.

(** A location of the actual document, the pattern that is written for it and the steps of its
    rule paths; [h]: the number of [like!] around the pattern. *)
Definition hrel (h : nat) (p : pattern) : list (list token * rule) := repeat ([], RType) h ++ rel p.
Definition typed_here (typed : bool) (h : nat) : bool := typed || (0 <? h)%nat.
Lemma typed_here_0 : forall b, typed_here b 0 = b.
Proof. intros []; reflexivity. Qed.
Record node (T : list token) (F : list str) (p : pattern) (h : nat) (typed : bool) : Prop := mkNode {
  n_len : length T = length F;
  n_acc : accepts T F;
  n_all : forall M t r, In (t, r) R -> accepts t (F ++ M) ->
    (exists u, t = T ++ u /\ accepts u M /\ In (u, r) (hrel h p)) \/
    (typed = true /\ type_rule r /\ (length t = (length F + length M)%nat -> r = RType) /\
     (forall u r', In (u, r') (hrel h p) -> accepts u M -> length u = length M -> rk t < rk (T ++ u)));
  n_in : forall u r, In (u, r) (hrel h p) -> In (T ++ u, r) R;
  n_typed : typed = true -> exists t r, In (t, r) R /\ accepts t F }.

Lemma in_hrel : forall h p u r, In (u, r) (hrel h p) <-> ((0 < h)%nat /\ u = [] /\ r = RType) \/ In (u, r) (rel p).
Proof.
  intros h p u r. unfold hrel. rewrite in_app_iff. split; (intros [I|I]; [left|right; exact I]).
  - destruct h; [destruct I|]. apply repeat_spec in I. injection I as -> ->. split; [lia|split; reflexivity].
  - destruct I as (L & -> & ->). destruct h; [lia|]. left; reflexivity.
Qed.
Lemma acc_len : forall t F, accepts t F -> (length t <= length F)%nat.
Proof. intros t F A. induction A; cbn; lia. Qed.
Lemma acc_app : forall T F u M, length T = length F -> accepts T F -> accepts u M -> accepts (T ++ u) (F ++ M).
Proof.
  intros T F u M L A B. induction A as [|t ts f path S A IH]; cbn in *; [destruct path; [exact B|discriminate]|].
  constructor; [exact S|]. apply IH. lia.
Qed.
Lemma small : forall t r, In (t, r) R -> (S (exact_steps t) < 64)%nat.
Proof. intros t r I. pose proof (Len t r I). pose proof (exact_le t). lia. Qed.
Lemma app_same : forall A (T u : list A), T = T ++ u -> u = [].
Proof. intros A T u E. rewrite <- (app_nil_r T) in E at 1. apply app_inv_head in E. symmetry; exact E. Qed.

(** A pattern with a rule of its own: its rules are in force at its location. *)
Lemma node_exact : forall T F p h typed l r0, node T F p h typed -> at_ l F -> In ([], r0) (hrel h p) ->
  exists rl, in_force (matchers c) l rl /\ rl_logic rl = And /\ rl_rules rl <> [] /\ rl_cascaded rl = false /\
    forall r, In r (rl_rules rl) <-> In ([], r) (hrel h p).
Proof.
  intros T F p h typed l r0 Nd At I0. destruct Nd as [Ln Ac Al In_ Ty].
  assert (In (T, r0) R) as IT by (pose proof (In_ _ _ I0) as Z; rewrite app_nil_r in Z; exact Z).
  destruct (some_force c R CB D l F At) as [rl Fo]; [exists T, r0; split; [exact IT|]; split; [exact Ac|eapply small, IT]|].
  exists rl. split; [exact Fo|]. destruct (force_found c R D l F rl At Fo) as (t & (At' & Lg & NE & Sr & Cs) & Top).
  assert (t = T) as ->.
  { destruct (rl_rules rl) as [|r1 rs] eqn:Er; [destruct (NE eq_refl)|]. assert (In (t, r1) R) as I1 by (apply Sr; left; reflexivity).
    destruct (Al [] t r1 I1) as [(u & -> & Au & _)|(_ & _ & _ & K)].
    - rewrite app_nil_r. exact At'.
    - inversion Au; subst. apply app_nil_r.
    - exfalso. specialize (K _ _ I0 (acc_nil []) eq_refl). rewrite app_nil_r in K. pose proof (Top T r0 IT Ac (small _ _ IT)). lia. }
  split; [exact Lg|]. split; [exact NE|]. split; [rewrite Cs; apply Nat.ltb_ge; lia|]. intro r. rewrite Sr. split.
  - intro Ir. destruct (Al [] T r Ir) as [(u & E & Au & Iu)|(_ & _ & _ & K)].
    + rewrite app_nil_r. exact Ac.
    + apply app_same in E. subst u. exact Iu.
    + exfalso. specialize (K _ _ I0 (acc_nil []) eq_refl). rewrite app_nil_r in K. lia.
  - intro Ir. pose proof (In_ _ _ Ir) as Z. rewrite app_nil_r in Z. exact Z.
Qed.

Definition typed_list (rl : rulelist) : Prop :=
  rl_logic rl = And /\ rl_rules rl <> [] /\
  forall r, In r (rl_rules rl) -> type_rule r /\ (rl_cascaded rl = false -> r = RType).
Definition type_governed (F : list str) : Prop := forall M l, at_ l (F ++ M) -> exists rl, in_force (matchers c) l rl /\ typed_list rl.
Definition ungoverned (F : list str) : Prop := forall M l, at_ l (F ++ M) -> no_rule_at (matchers c) l.

(** Where the pattern says nothing but [like!], its surroundings decide. *)
Lemma node_some : forall T F p h typed M l, node T F p h typed -> typed_here typed h = true -> at_ l (F ++ M) ->
  exists rl, in_force (matchers c) l rl.
Proof.
  intros T F p h typed M l [Ln Ac Al In_ Ty] Th At. apply (some_force c R CB D l _ At).
  destruct typed; [destruct (Ty eq_refl) as (t & r & It & A); exists t, r; split; [exact It|]; split; [apply accepts_app, A|eapply small, It]|].
  unfold typed_here in Th. cbn [orb] in Th. apply Nat.ltb_lt in Th.
  assert (In (T, RType) R) as IT.
  { pose proof (In_ [] RType) as Z. rewrite app_nil_r in Z. apply Z. apply in_hrel. left. auto. }
  exists T, RType. split; [exact IT|]. split; [apply accepts_app, Ac|eapply small, IT].
Qed.
Lemma node_loose : forall T F p h typed M l, node T F p h typed ->
  (forall u r, In (u, r) (rel p) -> accepts u M -> u = [] /\ r = RType) ->
  typed_here typed h = true -> at_ l (F ++ M) -> exists rl, in_force (matchers c) l rl /\ typed_list rl.
Proof.
  intros T F p h typed M l Nd Lo Th At. destruct (node_some _ _ _ _ _ _ _ Nd Th At) as [rl Fo]. destruct Nd as [Ln Ac Al In_ Ty].
  exists rl. split; [exact Fo|]. destruct (force_found c R D l _ rl At Fo) as (t & (At' & Lg & NE & Sr & Cs) & Top).
  split; [exact Lg|]. split; [exact NE|]. intros r Ir. apply Sr in Ir.
  destruct (Al M t r Ir At') as [(u & -> & Au & Iu)|(_ & Tr & Ex & _)].
  - apply in_hrel in Iu. destruct Iu as [(_ & -> & ->)|Iu]; [|destruct (Lo u r Iu Au) as [-> ->]]; split; try reflexivity; exact I.
  - split; [exact Tr|]. rewrite Cs. intro E. apply Ex. apply Nat.ltb_ge in E. rewrite app_length in E. apply acc_len in At'. rewrite app_length in At'. lia.
Qed.
Lemma node_none : forall T F p h typed M l, node T F p h typed ->
  (forall u r, In (u, r) (rel p) -> ~ accepts u M) -> typed_here typed h = false -> at_ l (F ++ M) -> no_rule_at (matchers c) l.
Proof.
  intros T F p h typed M l [Ln Ac Al In_ Ty] Lo Th At. apply (none_force c R D l _ At). intros t r It A.
  apply orb_false_elim in Th. destruct Th as [-> Th]. apply Nat.ltb_ge in Th.
  destruct (Al M t r It A) as [(u & -> & Au & Iu)|(E & _)]; [|discriminate].
  apply in_hrel in Iu. destruct Iu as [(L & _)|Iu]; [lia|]. exact (Lo u r Iu Au).
Qed.

(** * Plain values *)
Lemma type_governed_below : forall F f, type_governed F -> type_governed (F ++ [f]).
Proof. intros F f G M l At. apply (G (f :: M)). rewrite <- app_assoc in At. exact At. Qed.
Lemma ungoverned_below : forall F f, ungoverned F -> ungoverned (F ++ [f]).
Proof. intros F f G M l At. apply (G (f :: M)). rewrite <- app_assoc in At. exact At. Qed.
Lemma typed_simple : forall F l rl, at_ l F -> in_force (matchers c) l rl -> forall r, In r (rl_rules rl) -> simple r.
Proof. intros F l rl At Fo r Ir. destruct (force_found c R D l F rl At Fo) as (t & (_ & _ & _ & Sr & _) & _). eapply Si, Sr, Ir. Qed.
Lemma nof_in : forall A (l : list A) i x, nth_or_first l i = Some x -> In x l.
Proof.
  intros A l i x E. unfold nth_or_first in E. destruct (nth_error l i) eqn:N; [injection E as <-; eapply nth_error_In, N|].
  destruct l; [discriminate|]. injection E as <-. left; reflexivity.
Qed.
Lemma typed_array : forall l F rl e a, at_ l F -> in_force (matchers c) l rl -> typed_list rl ->
  (forall i, exists rl', in_force (matchers c) (join l (show_N (N.of_nat i))) rl') ->
  (compare_json w l (JArr e) (JArr a) c = [] <->
   forall i x y, nth_or_first e i = Some x -> nth_error a i = Some y -> compare_json w (join l (show_N (N.of_nat i))) x y c = []).
Proof.
  intros l F rl e a At Fo (Lg & NE & Tr) G.
  rewrite (array_rules w c R CB D Si l rl e a Fo Lg NE (typed_simple F l rl At Fo)). split.
  - intros [->|[_ [E _]]]; [|exact E]. intros [|i] x y Ex; discriminate Ex.
  - intro E. right. split.
    + intros r Ir. destruct (Tr r Ir) as [Ty Ex]. destruct r; try contradiction; cbn [array_satisfies]; try exact I; intro Cs; discriminate (Ex Cs).
    + split; [exact E|]. intros i _ N. destruct (G i) as [rl' Fo']. exact (no_rule_vs_force _ _ _ CB N Fo').
Qed.
Lemma typed_object : forall l F rl e a, at_ l F -> in_force (matchers c) l rl -> typed_list rl ->
  StronglySorted str_lt (keys e) -> StronglySorted str_lt (keys a) ->
  (compare_json w l (JObj e) (JObj a) c = [] <-> keys_match c (keys e) (keys a) /\ entries_match w c l e a).
Proof.
  intros l F rl e a At Fo (Lg & NE & Tr) Se Sa.
  rewrite (object_rules w c R CB D Si l rl e a Fo NE (typed_simple F l rl At Fo) Se Sa). split; [intros [_ H]; exact H|]. intro H. split; [|exact H].
  intros r Ir. destruct (Tr r Ir) as [Ty Ex]. destruct r; try contradiction; cbn [object_satisfies]; try exact I; intro Cs; discriminate (Ex Cs).
Qed.
Lemma keys_entries : forall l e a (P : str -> json -> json -> Prop),
  (forall k x y, obj_get k e = Some x -> obj_get k a = Some y -> (compare_json w (join l k) x y c = [] <-> P k x y)) ->
  (keys_match c (keys e) (keys a) /\ entries_match w c l e a <->
   (forall k v, obj_get k e = Some v -> exists v', obj_get k a = Some v' /\ P k v v') /\
   (allow c = false -> forall k, obj_get k e = None -> obj_get k a = None)).
Proof.
  intros l e a P Q. split.
  - intros [[K1 K2] En]. split.
    + intros k v Ek. assert (In k (keys a)) as Ik by (apply K1, key_in; eauto). apply key_in in Ik. destruct Ik as [v' Ea].
      exists v'. split; [exact Ea|]. apply (Q k v v' Ek Ea). eapply En; eassumption.
    + intros Al k Nk. destruct (obj_get k a) as [v|] eqn:Ea; [|reflexivity]. exfalso. assert (In k (keys e)) as Ik by (apply (K2 Al), key_in; eauto).
      apply key_in in Ik. destruct Ik as [v' Ee]. congruence.
  - intros [H1 H2]. split; [split|].
    + intros k Ik. apply key_in in Ik. destruct Ik as [v Ev]. destruct (H1 k v Ev) as (v' & Ea & _). apply key_in. eauto.
    + intros Al k Ik. apply key_in in Ik. destruct Ik as [v Ev]. apply key_in. destruct (obj_get k e) as [v'|] eqn:Ee; [eauto|]. rewrite (H2 Al k Ee) in Ev. discriminate.
    + intros k x y Ex Ey. apply (Q k x y Ex Ey). destruct (H1 k x Ex) as (v' & Ea & Pv). rewrite Ey in Ea. injection Ea as <-. exact Pv.
Qed.
Lemma plain_typed : forall e a l F, json_wf e -> json_wf a -> at_ l F -> type_governed F ->
  (compare_json w l e a c = [] <-> shape (allow c) e a).
Proof.
  assert (SC : forall e a l F, is_scalar e -> at_ l F -> type_governed F -> (compare_json w l e a c = [] <-> shape (allow c) e a)).
  { intros e a l F Sc At G. destruct (G [] l) as (rl & Fo & Lg & NE & Tr); [rewrite app_nil_r; exact At|].
    rewrite (C14_body_scalar w c (bodyr c R CB D Si) l rl e a Fo Sc). unfold combined. rewrite Lg. split.
    - intros [_ H]. destruct (rl_rules rl) as [|r rs]; [destruct (NE eq_refl)|]. specialize (H r (or_introl eq_refl)). destruct (Tr r (or_introl eq_refl)) as [Ty _].
      apply sh_scalar; [exact Sc|]. destruct r; try contradiction; exact H.
    - intro H. split; [exact NE|]. intros r Ir. destruct (Tr r Ir) as [Ty _].
      assert (type_of e = type_of a) as E by (inversion H; subst; try contradiction; assumption). destruct r; try contradiction; exact E. }
  induction e using json_ind'; intros a l0 F We Wa At G; try (eapply SC; [exact I|eassumption..]).
  - destruct a as [| | | |a|]; try (split; [intro X; exfalso; revert X; apply (type_mismatch w c R CB D Si); [intros []|discriminate] | intro X; inversion X; subst; contradiction]).
    destruct (G [] l0) as (rl & Fo & TL); [rewrite app_nil_r; exact At|].
    rewrite (typed_array l0 F rl l a At Fo TL);
      [|intro i; destruct (G [show_N (N.of_nat i)] (join l0 (show_N (N.of_nat i)))) as (rl' & Fo' & _); [apply at_index, At|exists rl'; exact Fo']].
    apply json_wf_arr in We, Wa. rewrite Forall_forall in H, We, Wa.
    assert (Q : forall i x y, nth_or_first l i = Some x -> nth_error a i = Some y -> (compare_json w (join l0 (show_N (N.of_nat i))) x y c = [] <-> shape (allow c) x y)).
    { intros i x y Ex Ey. apply (H x (nof_in _ _ _ _ Ex) y _ (F ++ [show_N (N.of_nat i)])); [apply We, (nof_in _ _ _ _ Ex)|apply Wa; eapply nth_error_In, Ey|apply at_index, At|apply type_governed_below, G]. }
    split.
    + intro E. apply sh_arr. intros i x y Ex Ey. apply (Q i x y Ex Ey). eapply E; eassumption.
    + intros Sh i x y Ex Ey. apply (Q i x y Ex Ey). inversion Sh as [? ? Sc|? ? E|]; subst; [contradiction|]. eapply E; eassumption.
  - destruct a as [| | | | |a]; try (split; [intro X; exfalso; revert X; apply (type_mismatch w c R CB D Si); [intros []|discriminate] | intro X; inversion X; subst; contradiction]).
    apply json_wf_obj in We as [Se We]. apply json_wf_obj in Wa as [Sa Wa]. rewrite Forall_forall in H, We, Wa.
    destruct (G [] l0) as (rl & Fo & TL); [rewrite app_nil_r; exact At|].
    rewrite (typed_object l0 F rl m a At Fo TL Se Sa), (keys_entries l0 m a (fun _ => shape (allow c))).
    + split; [intros [H1 H2]; apply sh_obj; assumption|]. intro Sh. inversion Sh as [? ? Sc| |]; subst; [contradiction|]. split; assumption.
    + intros k x y Ex Ey. assert (In (k, x) m) as Ix by (apply obj_get_in, Ex). assert (In (k, y) a) as Iy by (apply obj_get_in, Ey).
      apply (H (k, x) Ix y _ (F ++ [token_display (part_token k)])); [exact (We _ Ix)|exact (Wa _ Iy)|apply at_join, At|apply type_governed_below, G].
Qed.
Lemma F2_nth : forall A B (P : A -> B -> Prop) l m, Forall2 P l m <->
  length l = length m /\ forall i x y, nth_error l i = Some x -> nth_error m i = Some y -> P x y.
Proof.
  intros A B P. induction l as [|x l IH]; intros [|y m].
  - split; [intros _; split; [reflexivity|]; intros [|i] x y E; discriminate E|constructor].
  - split; [intro H; inversion H|intros [E _]; discriminate].
  - split; [intro H; inversion H|intros [E _]; discriminate].
  - split.
    + intro H. inversion H; subst. apply IH in H5. destruct H5 as [L E]. split; [cbn; lia|]. intros [|i] u v Eu Ev; cbn in Eu, Ev; [congruence|eapply E; eassumption].
    + intros [L E]. constructor; [apply (E O); reflexivity|]. apply IH. split; [cbn in L; lia|]. intros i u v Eu Ev. apply (E (S i)); assumption.
Qed.
Lemma plain_exact : forall e a l F, json_wf e -> json_wf a -> at_ l F -> ungoverned F ->
  (compare_json w l e a c = [] <-> agrees (allow c) e a).
Proof.
  assert (SC : forall e a l F, is_scalar e -> at_ l F -> ungoverned F -> (compare_json w l e a c = [] <-> agrees (allow c) e a)).
  { intros e a l F Sc At G. rewrite (scalar_none w c R CB D Si l e a); [|apply (G [] l); rewrite app_nil_r; exact At|exact Sc]. split; [apply ag_scalar|].
    intro H. inversion H; subst; try contradiction. assumption. }
  induction e using json_ind'; intros a l0 F We Wa At G; try (eapply SC; [exact I|eassumption..]).
  - assert (NS : forall a, same_scalar (JArr l) a -> False) by (intros a0 X; inversion X).
    destruct a as [| | | |a|]; try (split; [intro X; exfalso; revert X; apply (type_mismatch w c R CB D Si); [intros []|discriminate] | intro X; inversion X; subst; exfalso; eapply NS; eassumption]).
    rewrite (array_none w c R CB D Si l0 l a); [|apply (G [] l0); rewrite app_nil_r; exact At].
    apply json_wf_arr in We, Wa. rewrite Forall_forall in H, We, Wa.
    assert (agrees (allow c) (JArr l) (JArr a) <-> Forall2 (agrees (allow c)) l a) as ->.
    { split; [intro X; inversion X; subst; [exfalso; eapply NS; eassumption|assumption]|apply ag_arr]. }
    rewrite F2_nth. assert (Q : forall i x y, nth_error l i = Some x -> nth_error a i = Some y -> (compare_json w (join l0 (show_N (N.of_nat i))) x y c = [] <-> agrees (allow c) x y)).
    { intros i x y Ex Ey. apply (H x (nth_error_In _ _ Ex) y _ (F ++ [show_N (N.of_nat i)])); [apply We; eapply nth_error_In, Ex|apply Wa; eapply nth_error_In, Ey|apply at_index, At|apply ungoverned_below, G]. }
    split; (intros [L E]; split; [exact L|]; intros i x y Ex Ey; apply (Q i x y Ex Ey); eapply E; eassumption).
  - assert (NS : forall a, same_scalar (JObj m) a -> False) by (intros a0 X; inversion X).
    destruct a as [| | | | |a]; try (split; [intro X; exfalso; revert X; apply (type_mismatch w c R CB D Si); [intros []|discriminate] | intro X; inversion X; subst; exfalso; eapply NS; eassumption]).
    apply json_wf_obj in We as [Se We]. apply json_wf_obj in Wa as [Sa Wa]. rewrite Forall_forall in H, We, Wa.
    rewrite (object_none w c R CB D Si l0 m a); [|apply (G [] l0); rewrite app_nil_r; exact At|exact Se|exact Sa].
    rewrite (keys_entries l0 m a (fun _ => agrees (allow c))).
    + split; [intros [H1 H2]; apply ag_obj; assumption|]. intro Sh. inversion Sh; subst; [exfalso; eapply NS; eassumption|]. split; assumption.
    + intros k x y Ex Ey. assert (In (k, x) m) as Ix by (apply obj_get_in, Ex). assert (In (k, y) a) as Iy by (apply obj_get_in, Ey).
      apply (H (k, x) Ix y _ (F ++ [token_display (part_token k)])); [exact (We _ Ix)|exact (Wa _ Iy)|apply at_join, At|apply ungoverned_below, G].
Qed.

(** * Going down *)
Lemma node_child : forall T F p h typed s f q typed', node T F p h typed ->
  step_accepts s f ->
  (forall u r, In (u, r) (rel q) -> In (s :: u, r) (rel p)) ->
  (forall u r M, In (u, r) (rel p) -> accepts u (f :: M) ->
     (u = [] /\ type_rule r /\ typed' = true) \/ (exists u', u = s :: u' /\ In (u', r) (rel q)) \/
     (u = [TStarIndex; TStar] /\ r = RType /\ s = TStarIndex /\ typed' = true /\ forall x r', In ([x], r') (rel q) -> exact_steps [x] = 1%nat)) ->
  (typed_here typed h = true -> typed' = true) -> (typed' = true -> typed_here typed h = true \/ exists r, In ([], r) (rel p)) ->
  node (T ++ [s]) (F ++ [f]) q 0 typed'.
Proof.
  intros T F p h typed s f q typed' [Ln Ac Al In_ Ty] St Sub Up Th Th'. constructor.
  - rewrite !app_length, Ln. reflexivity.
  - apply acc_app; [exact Ln|exact Ac|]. constructor; [exact St|constructor].
  - intros M t r It A. rewrite <- app_assoc in A. cbn [app] in A.
    assert (InC : forall u r', In (u, r') (hrel 0 q) -> In (s :: u, r') (hrel h p)).
    { intros u r' I. apply in_hrel in I. destruct I as [(L & _)|I]; [lia|]. apply in_hrel. right. apply Sub, I. }
    assert (Sm : forall u r', In (u, r') (hrel 0 q) -> (length (T ++ s :: u) <= 57)%nat).
    { intros u r' I. eapply Len, In_, InC, I. }
    assert (Root : forall u r', In (u, r') (hrel 0 q) -> rk T < rk ((T ++ [s]) ++ u)).
    { intros u r' I. pose proof (Sm u r' I) as L. rewrite <- app_assoc. cbn [app]. apply rk_less; [exact L|rewrite exact_app; lia|rewrite app_length; lia|right; rewrite app_length; cbn; lia]. }
    destruct (Al (f :: M) t r It A) as [(u & -> & Au & Iu)|(-> & Tr & Ex & K)].
    + apply in_hrel in Iu. destruct Iu as [(L & -> & ->)|Iu].
      * right. rewrite app_nil_r. split; [apply Th; unfold typed_here; apply orb_true_iff; right; apply Nat.ltb_lt, L|]. split; [exact I|]. split; [reflexivity|].
        intros u r' Iu _ _. eapply Root, Iu.
      * destruct (Up u r M Iu Au) as [(-> & Tr & T1)|[(u' & -> & Iu')|(-> & -> & -> & T1 & One)]].
        -- right. rewrite app_nil_r. split; [exact T1|]. split; [exact Tr|]. split; [intro E; exfalso; rewrite app_length in E; cbn in E; lia|].
           intros u r' Iu' _ _. eapply Root, Iu'.
        -- left. exists u'. split; [rewrite <- app_assoc; reflexivity|]. split; [inversion Au; assumption|]. apply in_hrel. right. exact Iu'.
        -- right. split; [exact T1|]. split; [exact I|]. split; [reflexivity|]. intros u r' Iu' Au' Lu.
           pose proof (Sm u r' Iu') as L. rewrite <- app_assoc. cbn [app].
           inversion Au as [|? ? ? ? _ Au2]; subst. inversion Au2 as [|? ? f2 M2 _ _]; subst. cbn [length] in Lu.
           apply rk_less; [exact L|rewrite !exact_app; cbn; lia|rewrite !app_length; cbn; lia|].
           destruct u as [|x [|y u]]; [discriminate Lu| |right; rewrite !app_length; cbn; lia].
           left. apply in_hrel in Iu'. destruct Iu' as [(L0 & _)|Iu']; [lia|]. pose proof (One x r' Iu') as E1. rewrite !exact_app.
           change (TStarIndex :: [x]) with ([TStarIndex] ++ [x]). rewrite exact_app, E1. cbn [exact_steps]. lia.
    + right. split; [apply Th; reflexivity|]. split; [exact Tr|]. split.
      * intro E. apply Ex. rewrite E, app_length. cbn. lia.
      * intros u r' Iu Au Lu. rewrite <- app_assoc. cbn [app]. apply (K (s :: u) r'); [apply InC, Iu|constructor; assumption|cbn; lia].
  - intros u r I. rewrite <- app_assoc. apply In_. apply in_hrel in I. destruct I as [(L & _)|I]; [lia|]. apply in_hrel. right. apply Sub, I.
  - intro T1. destruct (Th' T1) as [Z|[r I]].
    + unfold typed_here in Z. destruct typed.
      * destruct (Ty eq_refl) as (t & r & It & A). exists t, r. split; [exact It|apply accepts_app, A].
      * apply Nat.ltb_lt in Z. exists T, RType. split; [|apply accepts_app, Ac]. pose proof (In_ [] RType) as Y. rewrite app_nil_r in Y. apply Y, in_hrel. left. auto.
    + exists T, r. split; [|apply accepts_app, Ac]. pose proof (In_ [] r) as Y. rewrite app_nil_r in Y. apply Y, in_hrel. right. exact I.
Qed.
Lemma child_array : forall T F ps h typed i q, node T F (PArray ps) h typed -> nth_error ps i = Some q -> len ps < 2 ^ 64 ->
  node (T ++ [TIndex (N.of_nat i)]) (F ++ [show_N (N.of_nat i)]) q 0 (typed_here typed h).
Proof.
  intros T F ps h typed i q Nd E Ls. assert (N.of_nat i < two64) as Li.
  { assert (i < length ps)%nat as L by (apply nth_error_Some; congruence). unfold len in Ls. change two64 with (2 ^ 64). lia. }
  eapply node_child; [exact Nd|apply parse_usize_show, Li| | |auto|auto].
  - intros u r I. apply rel_array_in. exists i, q, u. auto.
  - intros u r M I A. right; left. apply rel_array_in in I. destruct I as (j & x & u' & Ej & -> & I). exists u'.
    inversion A as [|? ? ? ? St _]; subst. cbn [step_accepts] in St. apply (show_canonical (N.of_nat i)) in St. apply show_N_inj, Nnat.Nat2N.inj in St. subst j.
    split; [reflexivity|]. congruence.
Qed.
Lemma child_object : forall T F fs h typed k q, node T F (PObject fs) h typed -> In (k, q) fs -> NoDup (keys fs) ->
  node (T ++ [TField k]) (F ++ [k]) q 0 (typed_here typed h).
Proof.
  intros T F fs h typed k q Nd E ND. eapply node_child; [exact Nd|reflexivity| | |auto|auto].
  - intros u r I. apply rel_object_in. exists k, q, u. auto.
  - intros u r M I A. right; left. apply rel_object_in in I. destruct I as (k' & x & u' & Ej & -> & I). exists u'.
    inversion A as [|? ? ? ? St _]; subst. cbn [step_accepts] in St. subst k'. split; [reflexivity|].
    assert (x = q) as -> by (pose proof (last_entry_nodup _ k fs q ND E) as L1; pose proof (last_entry_nodup _ k fs x ND Ej) as L2; congruence). exact I.
Qed.
Lemma child_each : forall T F q n h typed i, node T F (PEachLike q n) h typed -> ~ nested_each_like q -> i < 2 ^ 64 ->
  node (T ++ [TStarIndex]) (F ++ [show_N i]) q 0 true.
Proof.
  intros T F q n h typed i Nd Un Li.
  assert (step_accepts TStarIndex (show_N i)) as St by (right; exists i; apply parse_usize_show, Li).
  eapply node_child; [exact Nd|exact St| | |auto|].
  - intros u r I. right; right. apply in_shift. exists u. auto.
  - intros u r M [E|[E|I]] A.
    + injection E as <- <-. left. split; [reflexivity|]. split; [exact I|reflexivity].
    + injection E as <- <-. right; right. repeat split. intros x r'. apply rel_one_step, Un.
    + apply in_shift in I. right; left. exact I.
  - intros _. right. exists (RMinType n). left. reflexivity.
Qed.
Lemma node_like : forall T F p h typed, node T F (PLike p) h typed -> node T F p (S h) typed.
Proof.
  intros T F p h typed [Ln Ac Al In_ Ty].
  assert (Q : forall u r, In (u, r) (hrel h (PLike p)) <-> In (u, r) (hrel (S h) p)).
  { intros u r. rewrite !in_hrel. cbn [rel In]. split.
    - intros [(_ & -> & ->)|[E|I]]; [left; split; [lia|auto]|injection E as <- <-; left; split; [lia|auto]|right; exact I].
    - intros [(_ & -> & ->)|I]; [right; left; reflexivity|right; right; exact I]. }
  constructor; try assumption.
  - intros M t r It A. destruct (Al M t r It A) as [(u & E & Au & Iu)|(E1 & E2 & E3 & K)]; [left|right].
    + exists u. split; [exact E|]. split; [exact Au|apply Q, Iu].
    + split; [exact E1|]. split; [exact E2|]. split; [exact E3|]. intros u r' Iu. eapply K, Q, Iu.
  - intros u r I. apply In_, Q, I.
Qed.

Theorem pattern_accepts : forall p, proper p -> untied p -> forall T F h typed l a,
  node T F p h typed -> at_ l F -> json_wf a -> fits a ->
  (compare_json w l (to_example p) a c = [] <->
   means w (allow c) (typed_here typed h) p a /\ ((0 < h)%nat -> type_of (to_example p) = type_of a)).
Proof.
  induction p using pattern_ind'; intros Pr Un T F h typed l0 a Nd At Wa Fa; cbn [to_example].
  - (* plain *) inversion Pr; subst. destruct (typed_here typed h) eqn:Th.
    + rewrite (plain_typed j a l0 F); [|assumption|exact Wa|exact At|].
      * split; [intro S; split; [apply mn_value_typed, S|intros _; inversion S; subst; auto]|]. intros [M _]. inversion M; subst. assumption.
      * intros M l At'. eapply node_loose; [exact Nd|intros u r []|exact Th|exact At'].
    + rewrite (plain_exact j a l0 F); [|assumption|exact Wa|exact At|].
      * apply orb_false_elim in Th. destruct Th as [_ Th]. apply Nat.ltb_ge in Th.
        split; [intro S; split; [apply mn_value, S|intro; lia]|]. intros [M _]. inversion M; subst. assumption.
      * intros M l At'. eapply node_none; [exact Nd|intros u r []|exact Th|exact At'].
  - (* array *) inversion Pr as [|? Ls Pl| | | | |]; inversion Un as [|? Ul| | | | |]; subst.
    destruct a as [| | | |a|]; try (split; [intro X; exfalso; revert X; apply (type_mismatch w c R CB D Si); [intros []|discriminate] | intros [X _]; inversion X]).
    apply json_wf_arr in Wa. rewrite Forall_forall in Wa. inversion Fa as [? Sc|? La Fl|]; subst; [contradiction|].
    assert (IH : forall i q y, nth_error l i = Some q -> nth_error a i = Some y ->
      (compare_json w (join l0 (show_N (N.of_nat i))) (to_example q) y c = [] <-> means w (allow c) (typed_here typed h) q y)).
    { intros i q y Eq Ey. pose proof (nth_error_In _ _ Eq) as Iq. pose proof (nth_error_In _ _ Ey) as Iy.
      pose proof (H q Iq (Pl q Iq) (Ul q Iq) _ _ O (typed_here typed h) _ y (child_array _ _ _ _ _ _ _ Nd Eq Ls) (at_index _ _ _ At) (Wa y Iy) (Fl y Iy)) as Z.
      rewrite typed_here_0 in Z. rewrite Z. split; [intros [Y _]; exact Y|intro Y; split; [exact Y|intro; lia]]. }
    destruct (typed_here typed h) eqn:Th.
    + destruct (node_loose _ _ _ _ _ [] l0 Nd) as (rl & Fo & TL); [|exact Th|rewrite app_nil_r; exact At|].
      { intros u r Iu Au. exfalso. inversion Au; subst. apply rel_array_in in Iu. destruct Iu as (j & x & u' & _ & E & _). discriminate. }
      rewrite (typed_array l0 F rl (map to_example l) a At Fo TL); [|intro i; eapply node_some; [exact Nd|exact Th|apply at_index, At]].
      assert (GE : forall i, nth_error l i = None -> type_governed (F ++ [show_N (N.of_nat i)])).
      { intros i Ni M l1 At1. rewrite <- app_assoc in At1. eapply node_loose; [exact Nd| |exact Th|exact At1]. intros u r Iu Au. exfalso.
        apply rel_array_in in Iu. destruct Iu as (j & x & u' & Ej & -> & _). inversion Au as [|? ? ? ? St _]; subst. cbn [step_accepts] in St.
        apply (show_canonical (N.of_nat i)) in St. apply show_N_inj, Nnat.Nat2N.inj in St. subst j. congruence. }
      assert (Q : forall i x y, nth_or_first (map to_example l) i = Some x -> nth_error a i = Some y ->
        (compare_json w (join l0 (show_N (N.of_nat i))) x y c = [] <->
         match nth_error l i with Some q => means w (allow c) true q y | None => shape (allow c) x y end)).
      { intros i x y Ex Ey. unfold nth_or_first in Ex. rewrite nth_error_map in Ex. destruct (nth_error l i) as [q|] eqn:Eq; cbn [option_map] in Ex.
        - injection Ex as <-. apply IH; assumption.
        - destruct l as [|q0 l]; [discriminate|]. cbn [map] in Ex. injection Ex as <-. apply (plain_typed (to_example q0) y _ (F ++ [show_N (N.of_nat i)])).
          + apply example_wf, Pl. left; reflexivity.
          + apply Wa. eapply nth_error_In, Ey.
          + apply at_index, At.
          + apply GE, Eq. }
      split.
      * intro E. split; [|reflexivity]. apply mn_array_typed.
        -- intros i q v Eq Ev. specialize (E i (to_example q) v). unfold nth_or_first in E. rewrite nth_error_map, Eq in E. specialize (E eq_refl Ev). apply (IH i q v Eq Ev), E.
        -- intros i q l' v El Eq Ev. specialize (E i (to_example q) v). unfold nth_or_first in E. rewrite nth_error_map, Eq in E. subst l. specialize (E eq_refl Ev).
           apply (Q i) in E; [rewrite Eq in E; exact E|unfold nth_or_first; rewrite nth_error_map, Eq; reflexivity|exact Ev].
      * intros [M _]. inversion M as [| | | | | | |? ? M1 M2| |]; subst. intros i x y Ex Ey. apply (Q i x y Ex Ey). destruct (nth_error l i) as [q|] eqn:Eq; [eapply M1; eassumption|].
        unfold nth_or_first in Ex. rewrite nth_error_map, Eq in Ex. destruct l as [|q0 l]; [discriminate|]. cbn in Ex. injection Ex as <-. eapply M2; [reflexivity|exact Eq|exact Ey].
    + rewrite (array_none w c R CB D Si l0 _ a).
      2: { eapply (node_none _ _ _ _ _ []); [exact Nd| |exact Th|rewrite app_nil_r; exact At]. intros u r Iu Au. inversion Au; subst. apply rel_array_in in Iu. destruct Iu as (j & x & u' & _ & E & _). discriminate. }
      rewrite map_length. apply orb_false_elim in Th. destruct Th as [-> Th0]. apply Nat.ltb_ge in Th0.
      assert (means w (allow c) false (PArray l) (JArr a) <-> Forall2 (means w (allow c) false) l a) as ->.
      { split; [intro M; inversion M; subst; assumption|apply mn_array]. }
      rewrite F2_nth. split.
      * intros [Le E]. split; [|intro; lia]. split; [exact Le|]. intros i q y Eq Ey. apply (IH i q y Eq Ey). eapply E; [|exact Ey]. rewrite nth_error_map, Eq. reflexivity.
      * intros [[Le E] _]. split; [exact Le|]. intros i x y Ex Ey. rewrite nth_error_map in Ex. destruct (nth_error l i) as [q|] eqn:Eq; [|discriminate]. injection Ex as <-.
        apply (IH i q y Eq Ey). eapply E; eassumption.
  - (* object *) inversion Pr as [| |? ND Pf| | | |]; inversion Un as [| |? Uf| | | |]; subst.
    destruct a as [| | | | |a]; try (split; [intro X; exfalso; revert X; apply (type_mismatch w c R CB D Si); [intros []|discriminate] | intros [X _]; inversion X]).
    apply json_wf_obj in Wa as [Sa Wa]. rewrite Forall_forall in Wa. inversion Fa as [? Sc| |? Fm]; subst; [contradiction|].
    change (obj_of_list (map (fun kv => (fst kv, to_example (snd kv))) fs)) with (example_fields fs).
    assert (CO : compare_json w l0 (JObj (example_fields fs)) (JObj a) c = [] <-> keys_match c (keys (example_fields fs)) (keys a) /\ entries_match w c l0 (example_fields fs) a).
    { destruct (typed_here typed h) eqn:Th.
      - destruct (node_loose _ _ _ _ _ [] l0 Nd) as (rl & Fo & TL); [|exact Th|rewrite app_nil_r; exact At|].
        { intros u r Iu Au. exfalso. inversion Au; subst. apply rel_object_in in Iu. destruct Iu as (j & x & u' & _ & E & _). discriminate. }
        apply (typed_object l0 F rl); try assumption. apply example_sorted.
      - apply (object_none w c R CB D Si); [|apply example_sorted|exact Sa]. eapply (node_none _ _ _ _ _ []); [exact Nd| |exact Th|rewrite app_nil_r; exact At].
        intros u r Iu Au. inversion Au; subst. apply rel_object_in in Iu. destruct Iu as (j & x & u' & _ & E & _). discriminate. }
    rewrite CO, (keys_entries l0 (example_fields fs) a (fun k x y => exists q, In (k, q) fs /\ means w (allow c) (typed_here typed h) q y)).
    + split.
      * intros [H1 H2]. split; [|reflexivity]. apply mn_object.
        -- intros k q Iq. destruct (H1 k (to_example q)) as (v & Ev & q' & Iq' & Mv); [apply example_get; [exact ND|eauto]|].
           exists v. split; [exact Ev|]. assert (q' = q) as -> by (pose proof (last_entry_nodup _ k fs q ND Iq) as L1; pose proof (last_entry_nodup _ k fs q' ND Iq') as L2; congruence). exact Mv.
        -- intros Al k Ik. destruct (obj_get k (example_fields fs)) as [v|] eqn:Ek.
           ++ apply example_get in Ek; [|exact ND]. destruct Ek as (q & Iq & _). change k with (fst (k, q)). apply in_map, Iq.
           ++ apply key_in in Ik. destruct Ik as [v Ev]. rewrite (H2 Al k Ek) in Ev. discriminate.
      * intros [M _]. inversion M as [| | | | |? ? ? M1 M2| | | |]; subst. split.
        -- intros k v Ek. apply example_get in Ek; [|exact ND]. destruct Ek as (q & Iq & ->). destruct (M1 k q Iq) as (v' & Ev & Mv). exists v'. split; [exact Ev|]. exists q. split; assumption.
        -- intros Al k Ek. destruct (obj_get k a) as [v|] eqn:Ea; [|reflexivity]. exfalso. assert (In k (keys a)) as Ik by (apply key_in; eauto).
           apply (M2 Al) in Ik. apply in_map_iff in Ik. destruct Ik as ([k' q] & E & Iq). cbn [fst] in E. subst k'.
           assert (obj_get k (example_fields fs) = Some (to_example q)) as Z by (apply example_get; [exact ND|eauto]). congruence.
    + intros k x y Ex Ey. apply example_get in Ex; [|exact ND]. destruct Ex as (q & Iq & ->).
      assert (In (k, y) a) as Iy by (apply obj_get_in, Ey). destruct (Pf k q Iq) as [Ck Pq].
      pose proof (H k q Iq Pq (Uf k q Iq) _ _ O (typed_here typed h) _ y (child_object _ _ _ _ _ _ _ Nd Iq ND) (at_key _ _ _ Ck At) (Wa _ Iy) (Fm k y Iy)) as Z.
      rewrite typed_here_0 in Z. rewrite Z. split.
      * intros [Y _]. exists q. split; assumption.
      * intros (q' & Iq' & Y). assert (q' = q) as -> by (pose proof (last_entry_nodup _ k fs q ND Iq) as L1; pose proof (last_entry_nodup _ k fs q' ND Iq') as L2; congruence).
        split; [exact Y|intro; lia].
  - (* like *) inversion Pr; inversion Un; subst. rewrite (IHp ltac:(assumption) ltac:(assumption) T F (S h) typed l0 a (node_like _ _ _ _ _ Nd) At Wa Fa).
    assert (typed_here typed (S h) = true) as -> by (unfold typed_here; apply orb_true_iff; right; reflexivity). split.
    + intros [M E]. assert (type_of (to_example p) = type_of a) as Et by (apply E; lia). split; [|intros _; exact Et]. apply mn_like; assumption.
    + intros [M E]. inversion M; subst. split; [assumption|intros _; assumption].
  - (* each like *) inversion Pr; inversion Un; subst.
    destruct a as [| | | |a|]; try (split; [intro X; exfalso; revert X; apply (type_mismatch w c R CB D Si); [intros []|discriminate] | intros [X _]; inversion X]).
    apply json_wf_arr in Wa. rewrite Forall_forall in Wa. inversion Fa as [? Sc|? La Fl|]; subst; [contradiction|].
    destruct (node_exact _ _ _ _ _ l0 (RMinType n) Nd At) as (rl & Fo & Lg & NE & Cs & Sr); [apply in_hrel; right; left; reflexivity|].
    rewrite (array_rules w c R CB D Si l0 rl _ a Fo Lg NE (typed_simple F l0 rl At Fo)).
    assert (Rs : forall r, In r (rl_rules rl) -> r = RType \/ r = RMinType n).
    { intros r Ir. apply Sr, in_hrel in Ir. destruct Ir as [(_ & _ & ->)|[E|[E|Ir]]]; try (injection E as <-; auto); auto; try discriminate E.
      apply in_shift in Ir. destruct Ir as (v & E & _). discriminate. }
    assert (IH : forall i y, nth_error a i = Some y -> (compare_json w (join l0 (show_N (N.of_nat i))) (to_example p) y c = [] <-> means w (allow c) true p y)).
    { intros i y Ey. pose proof (nth_error_In _ _ Ey) as Iy. assert (N.of_nat i < 2 ^ 64) as Li.
      { assert (i < length a)%nat as L by (apply nth_error_Some; congruence). unfold len in La. lia. }
      rewrite (IHp ltac:(assumption) ltac:(assumption) _ _ O true _ y (child_each _ _ _ _ _ _ _ Nd ltac:(assumption) Li) (at_index _ _ _ At) (Wa y Iy) (Fl y Iy)).
      split; [intros [Y _]; exact Y|intro Y; split; [exact Y|intro; lia]]. }
    split.
    + intros [E|[Sz [El _]]]; (split; [|reflexivity]).
      * destruct (N.eq_dec n 0) as [->|Nz]; [apply mn_each_like_0|]. destruct (N.to_nat n) eqn:En; [lia|discriminate E].
      * destruct (N.eq_dec n 0) as [->|Nz]; [apply mn_each_like_0|]. apply mn_each_like.
        -- assert (In (RMinType n) (rl_rules rl)) as Im by (apply Sr, in_hrel; right; left; reflexivity). exact (Sz _ Im Cs).
        -- intros v Iv. destruct (In_nth_error _ _ Iv) as [i Ei]. apply (IH i v Ei). eapply El; [|exact Ei]. unfold nth_or_first.
           destruct (N.to_nat n) eqn:En; [lia|]. destruct (nth_error (repeat (to_example p) (S n0)) i) as [x|] eqn:Ex; [|reflexivity].
           apply nth_error_In, repeat_spec in Ex. congruence.
    + intros [M _]. inversion M as [| | | | | | | |? ? ? ? Mn Mv|]; subst; [right|left; reflexivity]. split.
      * intros r Ir. destruct (Rs r Ir) as [-> | ->]; [exact I|]. intros _. exact Mn.
      * split.
        -- intros i x y Ex Ey. apply nof_in, repeat_spec in Ex. subst x. apply (IH i y Ey). apply Mv. eapply nth_error_In, Ey.
        -- intros i [L1 L2]. rewrite repeat_length in L2. unfold len in Mn. lia.
  - (* term *) destruct (node_exact _ _ _ _ _ l0 (RRegex re) Nd At) as (rl & Fo & Lg & NE & Cs & Sr); [apply in_hrel; right; left; reflexivity|].
    rewrite (C14_body_scalar w c (bodyr c R CB D Si) l0 rl (JStr ex) a Fo Logic.I). unfold combined. rewrite Lg. split.
    + intros [_ E]. split.
      * apply mn_term. apply (E (RRegex re)). apply Sr, in_hrel. right; left; reflexivity.
      * intro L. apply (E RType). apply Sr, in_hrel. left. auto.
    + intros [M E]. split; [exact NE|]. intros r Ir. apply Sr, in_hrel in Ir. destruct Ir as [(L & _ & ->)|[Ee|[]]]; [exact (E L)|]. injection Ee as <-. inversion M; subst. assumption.
  - (* datetime *) destruct (node_exact _ _ _ _ _ l0 (RTimestamp f) Nd At) as (rl & Fo & Lg & NE & Cs & Sr); [apply in_hrel; right; left; reflexivity|].
    rewrite (C14_body_scalar w c (bodyr c R CB D Si) l0 rl (JStr ex) a Fo Logic.I). unfold combined. rewrite Lg. split.
    + intros [_ E]. split.
      * apply mn_datetime. apply (E (RTimestamp f)). apply Sr, in_hrel. right; left; reflexivity.
      * intro L. apply (E RType). apply Sr, in_hrel. left. auto.
    + intros [M E]. split; [exact NE|]. intros r Ir. apply Sr, in_hrel in Ir. destruct Ir as [(L & _ & ->)|[Ee|[]]]; [exact (E L)|]. injection Ee as <-. inversion M; subst. assumption.
  - inversion Pr.
Qed.
End Node.

(** ** C91: what a pattern accepts *)
Theorem C91_pattern_accepts_exactly : forall w extra p c a,
  proper p -> untied p -> (depth p <= 57)%nat -> rules_of_pattern p c -> json_wf a -> fits a ->
  (compare_json w path_root (to_example p) a (mkCtx extra c) = [] <-> means w extra false p a).
Proof.
  intros w extra p c a Pr Un De Rp Wa Fa. pose proof (pattern_describes p c Pr Rp) as D.
  rewrite (pattern_accepts w (mkCtx extra c) (rel p) (proj1 Rp) D (rel_simple p)
    (fun t r I => Nat.le_trans _ _ _ (rel_depth p t r I) De) p Pr Un [] [] O false path_root a); try assumption; try reflexivity.
  - unfold typed_here. cbn [orb Nat.ltb Nat.leb allow]. split; [intros [M _]; exact M|intro M; split; [exact M|intro; lia]].
  - constructor; try reflexivity.
    + apply acc_nil.
    + intros M t r It A. left. exists t. split; [reflexivity|]. split; [exact A|exact It].
    + intros u r I. exact I.
    + discriminate.
Qed.
