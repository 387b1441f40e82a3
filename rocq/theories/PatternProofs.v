(** Proofs about the patterns of the consumer DSL. *)
From Coq Require Import Ascii String List Arith NArith ZArith Lia Bool Permutation Sorted.
From Verif Require Import Base PathExp PathExpProofs SpecPath PropPath Json MatchingRules SpecRules Matchers JsonCompare SpecMatch SpecValues
  CompareProofs CompareProofs2 CompareProofs3 SpecBody BodyProofs PropBody Pattern SpecPattern.
Import ListNotations.
Open Scope N_scope.
Local Opaque show_N.

(** * The rules of a pattern as a list of relative steps and rules *)
Definition shift (t : token) (l : list (list token * rule)) : list (list token * rule) :=
  map (fun e => (t :: fst e, snd e)) l.
Fixpoint rel (p : pattern) : list (list token * rule) :=
  match p with
  | PJson _ => []
  | PArray l =>
      (fix go (i : N) (l : list pattern) : list (list token * rule) :=
         match l with
         | [] => []
         | x :: l' => shift (TIndex i) (rel x) ++ go (i + 1) l'
         end) 0 l
  | PObject fs =>
      (fix go (fs : list (str * pattern)) : list (list token * rule) :=
         match fs with
         | [] => []
         | kv :: fs' => shift (TField (fst kv)) (rel (snd kv)) ++ go fs'
         end) fs
  | PLike q => ([], RType) :: rel q
  | PEachLike q n => ([], RMinType n) :: ([TStarIndex; TStar], RType) :: shift TStarIndex (rel q)
  | PTerm re _ => [([], RRegex re)]
  | PDateTime f _ => [([], RTimestamp f)]
  | PObjectMatching _ _ => []
  end.

Section PatternInd.
  Variable P : pattern -> Prop.
  Hypothesis H1 : forall j, P (PJson j).
  Hypothesis H2 : forall l, (forall p, In p l -> P p) -> P (PArray l).
  Hypothesis H3 : forall fs, (forall k p, In (k, p) fs -> P p) -> P (PObject fs).
  Hypothesis H4 : forall p, P p -> P (PLike p).
  Hypothesis H5 : forall p n, P p -> P (PEachLike p n).
  Hypothesis H6 : forall re ex, P (PTerm re ex).
  Hypothesis H7 : forall f ex, P (PDateTime f ex).
  Hypothesis H8 : forall p rs, P p -> P (PObjectMatching p rs).
  Fixpoint pattern_ind' (p : pattern) : P p :=
    match p as p' return P p' with
    | PJson j => H1 j
    | PArray l => H2 l ((fix go (l : list pattern) : forall p, In p l -> P p :=
        match l as l' return forall p, In p l' -> P p with
        | [] => fun p (i : In p []) => match i with end
        | x :: l' => fun p i => match i with
                                | or_introl e => match e in _ = y return P y with eq_refl => pattern_ind' x end
                                | or_intror i' => go l' p i'
                                end
        end) l)
    | PObject fs => H3 fs ((fix go (fs : list (str * pattern)) : forall k p, In (k, p) fs -> P p :=
        match fs as l' return forall k p, In (k, p) l' -> P p with
        | [] => fun k p (i : In (k, p) []) => match i with end
        | x :: l' => fun k p i => match i with
                                | or_introl e => eq_ind (snd x) P (pattern_ind' (snd x)) p (f_equal snd e)
                                | or_intror i' => go l' k p i'
                                end
        end) fs)
    | PLike q => H4 q (pattern_ind' q)
    | PEachLike q n => H5 q n (pattern_ind' q)
    | PTerm re ex => H6 re ex
    | PDateTime f ex => H7 f ex
    | PObjectMatching q rs => H8 q rs (pattern_ind' q)
    end.
End PatternInd.

Lemma push_all_tokens : forall t T, push_all (from_tokens T) t = from_tokens (T ++ t).
Proof.
  unfold push_all. induction t as [|x t IH]; intro T; cbn [fold_left]; [rewrite app_nil_r; reflexivity|].
  assert (push (from_tokens T) x = from_tokens (T ++ [x])) as ->.
  { unfold push, from_tokens. cbn [path_tokens path_expr]. rewrite build_expr_app. cbn [build_expr]. rewrite app_nil_r. reflexivity. }
  rewrite IH, <- app_assoc. reflexivity.
Qed.
Definition add_all (path : docpath) (l : list (list token * rule)) (c : category) : category :=
  fold_left (fun c e => cat_add_rule c (push_all path (fst e)) (snd e) And) l c.
Lemma add_all_app : forall path l l' c, add_all path (l ++ l') c = add_all path l' (add_all path l c).
Proof. intros. unfold add_all. apply fold_left_app. Qed.
Lemma add_all_shift : forall path t l c, add_all path (shift t l) c = add_all (push path t) l c.
Proof.
  intros path t l. unfold add_all, shift. induction l as [|e l IH]; intro c; cbn [map fold_left]; [reflexivity|]. rewrite IH. reflexivity.
Qed.
Lemma extract_rel : forall p, proper p -> forall path c, extract p path c = add_all path (rel p) c.
Proof.
  induction p using pattern_ind'; intros Pr path c; cbn [extract rel]; try reflexivity.
  - inversion Pr as [|? _ A| | | | |]; subst. change 0 with (0 + 0) at 1 2. generalize 0 at 1 3 as i. intro i.
    assert (forall i c,
      (fix go (i : N) (l : list pattern) (c : category) : category :=
         match l with [] => c | x :: l' => go (i + 1) l' (extract x (push_index path i) c) end) i l c =
      add_all path ((fix go (i : N) (l : list pattern) : list (list token * rule) :=
         match l with [] => [] | x :: l' => shift (TIndex i) (rel x) ++ go (i + 1) l' end) i l) c) as Z; [|apply Z].
    clear i c Pr. induction l as [|x l IH]; intros i c; [reflexivity|]. rewrite add_all_app, add_all_shift, IH.
    + f_equal. apply H; [left; reflexivity|apply A; left; reflexivity].
    + intros q Iq. apply H. right; exact Iq.
    + intros q Iq. apply A. right; exact Iq.
  - inversion Pr as [| |? ND A| | | |]; subst. clear Pr ND. revert c. induction fs as [|[k x] fs IH]; intro c; [reflexivity|].
    rewrite add_all_app, add_all_shift, IH.
    + f_equal. cbn [fst snd]. apply (H k); [left; reflexivity|apply (A k); left; reflexivity].
    + intros k' q Iq. apply (H k'). right; exact Iq.
    + intros k' q Iq. apply A. right; exact Iq.
  - inversion Pr; subst. rewrite IHp by assumption. reflexivity.
  - inversion Pr; subst. rewrite IHp by assumption.
    change (([], RMinType n) :: ([TStarIndex; TStar], RType) :: shift TStarIndex (rel p))
      with ([([], RMinType n); ([TStarIndex; TStar], RType)] ++ shift TStarIndex (rel p)).
    rewrite add_all_app, add_all_shift. reflexivity.
  - inversion Pr.
Qed.

(** What the entries of a category say, as a set of steps and rules. *)
Definition describes (m : list (docpath * rulelist)) (l : list (list token * rule)) : Prop :=
  (forall e, In e m -> exists t, fst e = from_tokens (TRoot :: t) /\ rl_logic (snd e) = And /\ rl_rules (snd e) <> [] /\
     forall r, In r (rl_rules (snd e)) <-> In (t, r) l) /\
  (forall t r, In (t, r) l -> exists rl, In (from_tokens (TRoot :: t), rl) m).
Lemma from_tokens_inj : forall a b, from_tokens a = from_tokens b -> a = b.
Proof. intros a b H. injection H as H _. exact H. Qed.
Lemma path_eqb_tokens : forall a b, path_eqb (from_tokens a) (from_tokens b) = true <-> a = b.
Proof.
  intros a b. unfold path_eqb, from_tokens. cbn [path_expr]. rewrite str_eqb_eq. split; [apply build_expr_inj|intros ->; reflexivity].
Qed.
Lemma hm_push_describes : forall m l t r, NoDup (map fst m) -> describes m l ->
  NoDup (map fst (hm_push (from_tokens (TRoot :: t)) r And m)) /\
  describes (hm_push (from_tokens (TRoot :: t)) r And m) (l ++ [(t, r)]).
Proof.
  intros m l t r ND [D1 D2].
  assert (G : forall e, In e (hm_push (from_tokens (TRoot :: t)) r And m) ->
     (In e m /\ fst e <> from_tokens (TRoot :: t)) \/
     (exists rl, In (from_tokens (TRoot :: t), rl) m /\ e = (from_tokens (TRoot :: t), mkRules (rl_rules rl ++ [r]) (rl_logic rl) (rl_cascaded rl))) \/
     (~ In (from_tokens (TRoot :: t)) (map fst m) /\ e = (from_tokens (TRoot :: t), mkRules [r] And false))).
  { clear D2. induction m as [|[k rl] m IH]; cbn [hm_push map fst]; intros e Ie.
    - destruct Ie as [<-|[]]. right; right. split; [intros []|reflexivity].
    - inversion ND as [|? ? Nk ND']; subst.
      destruct (D1 (k, rl) (or_introl eq_refl)) as (u & Eu & _). cbn [fst] in Eu. subst k.
      destruct (path_eqb (from_tokens (TRoot :: t)) (from_tokens (TRoot :: u))) eqn:E.
      + apply path_eqb_tokens in E. injection E as ->. destruct Ie as [<-|Ie].
        * right; left. exists rl. split; [left; reflexivity|reflexivity].
        * left. split; [right; exact Ie|]. intro X. apply Nk. rewrite <- X. apply in_map, Ie.
      + assert (from_tokens (TRoot :: u) <> from_tokens (TRoot :: t)) as Ne.
        { intro X. apply from_tokens_inj in X. injection X as ->. rewrite (proj2 (path_eqb_tokens _ _) eq_refl) in E. discriminate. }
        destruct Ie as [<-|Ie]; [left; split; [left; reflexivity|exact Ne]|].
        destruct (IH ND') with (e := e) as [(I & N)|[(rl' & I & ->)|(N & ->)]].
        * intros x Ix. apply D1. right; exact Ix.
        * exact Ie.
        * left. split; [right; exact I|exact N].
        * right; left. exists rl'. split; [right; exact I|reflexivity].
        * right; right. split; [|reflexivity]. intros [X|X]; [exact (Ne X)|exact (N X)]. }
  assert (K : forall e, In e m -> exists rl, In (fst e, rl) (hm_push (from_tokens (TRoot :: t)) r And m)).
  { clear. induction m as [|[k rl] m IH]; intros e []; subst; cbn [hm_push].
    - destruct (path_eqb _ k); eexists; left; reflexivity.
    - destruct (IH e H) as [rl' I]. destruct (path_eqb _ k); [|exists rl'; right; exact I].
      exists (snd e). right. destruct e; exact H. }
  assert (K' : exists rl, In (from_tokens (TRoot :: t), rl) (hm_push (from_tokens (TRoot :: t)) r And m)).
  { clear - D1. induction m as [|[k rl] m IH]; cbn [hm_push]; [eexists; left; reflexivity|].
    destruct (D1 (k, rl) (or_introl eq_refl)) as (u & Eu & _). cbn [fst] in Eu. subst k.
    destruct (path_eqb _ (from_tokens (TRoot :: u))) eqn:E.
    - apply path_eqb_tokens in E. injection E as ->. eexists; left; reflexivity.
    - destruct IH as [rl' I]; [intros x Ix; apply D1; right; exact Ix|]. exists rl'. right. exact I. }
  split.
  - clear G K K' D2. induction m as [|[k rl] m IH]; cbn [hm_push map fst]; [constructor; [intros []|constructor]|].
    inversion ND as [|? ? Nk ND']; subst. destruct (path_eqb _ k) eqn:E; cbn [map fst]; [constructor; assumption|].
    constructor.
    + destruct (D1 (k, rl) (or_introl eq_refl)) as (u & Eu & _). cbn [fst] in Eu. subst k. intro I.
      assert (forall x, In x (map fst (hm_push (from_tokens (TRoot :: t)) r And m)) -> x = from_tokens (TRoot :: t) \/ In x (map fst m)) as Z.
      { clear. induction m as [|[k rl] m IH]; cbn [hm_push map fst]; [intros x [<-|[]]; left; reflexivity|].
        intros x. destruct (path_eqb _ k); cbn [map fst]; intros [<-|I]; try (right; left; reflexivity); [right; right; exact I|].
        destruct (IH x I) as [->|J]; [left; reflexivity|right; right; exact J]. }
      destruct (Z _ I) as [X|X]; [|exact (Nk X)]. rewrite X in E. rewrite (proj2 (path_eqb_tokens _ _) eq_refl) in E. discriminate.
    + apply IH; [exact ND'|]. intros x Ix. apply D1. right; exact Ix.
  - split.
    + intros e Ie. destruct (G e Ie) as [(I & N)|[(rl & I & ->)|(N & ->)]].
      * destruct (D1 e I) as (u & Eu & L & NE & S). exists u. split; [exact Eu|]. split; [exact L|]. split; [exact NE|].
        intro x. rewrite S, in_app_iff. split; [auto|]. intros [J|[J|[]]]; [exact J|]. injection J as -> _. rewrite Eu in N. destruct (N eq_refl).
      * destruct (D1 _ I) as (u & Eu & L & NE & S). cbn [fst snd] in *. apply from_tokens_inj in Eu. injection Eu as <-.
        exists t. split; [reflexivity|]. cbn [rl_logic rl_rules]. split; [exact L|]. split; [destruct (rl_rules rl); discriminate|].
        intro x. rewrite !in_app_iff, S. split; (intros [J|[J|[]]]; [left; exact J|right; left]); [subst; reflexivity|injection J as ->; reflexivity].
      * exists t. cbn [fst snd rl_logic rl_rules]. split; [reflexivity|]. split; [reflexivity|]. split; [discriminate|].
        intro x. rewrite in_app_iff. split.
        -- intros [<-|[]]. right; left; reflexivity.
        -- intros [J|[J|[]]]; [|injection J as ->; left; reflexivity]. exfalso. apply N. destruct (D2 _ _ J) as [rl' I'].
           change (In (fst (from_tokens (TRoot :: t), rl')) (map fst m)). apply in_map, I'.
    + intros u x I. apply in_app_or in I. destruct I as [I|[I|[]]].
      * destruct (D2 _ _ I) as [rl J]. exact (K _ J).
      * injection I as -> ->. exact K'.
Qed.
Lemma add_all_describes : forall l c l0, NoDup (map fst (cat_rules c)) -> describes (cat_rules c) l0 ->
  describes (cat_rules (add_all path_root l c)) (l0 ++ l).
Proof.
  induction l as [|[t r] l IH]; intros c l0 ND D; cbn [add_all fold_left]; [rewrite app_nil_r; exact D|].
  change path_root with (from_tokens [TRoot]). cbn [fst snd]. rewrite push_all_tokens. cbn [app].
  destruct (hm_push_describes _ l0 t r ND D) as [N' D']. specialize (IH (cat_add_rule c (from_tokens (TRoot :: t)) r And) _ N' D').
  rewrite <- app_assoc in IH. exact IH.
Qed.
Lemma pattern_describes : forall p c, proper p -> rules_of_pattern p c -> describes (cat_rules c) (rel p).
Proof.
  intros p c Pr [_ Pm].
  assert (describes (cat_rules (body_rules_of p)) (rel p)) as [D1 D2].
  { unfold body_rules_of. rewrite (extract_rel _ Pr). apply (add_all_describes (rel p) (cat_empty CBody) []); [constructor|].
    split; [intros ? []|intros ? ? []]. }
  split.
  - intros e Ie. apply D1. apply Permutation_sym in Pm. eapply Permutation_in; eassumption.
  - intros t r I. destruct (D2 t r I) as [rl J]. exists rl. eapply Permutation_in; eassumption.
Qed.

(** * Which rules are in force *)
Definition simple (r : rule) : Prop := match r with RType | RMinType _ | RRegex _ | RTimestamp _ => True | _ => False end.
Definition rk (t : list token) : N := rank (from_tokens (TRoot :: t)).
Lemma rk_value : forall t, (length t <= 57)%nat -> rk t = 2 ^ N.of_nat (S (exact_steps t)) * N.of_nat (S (length t)).
Proof.
  intros t L. unfold rk, rank, specificity, from_tokens. cbn [path_tokens exact_steps length]. apply N.mod_small.
  assert (exact_steps t <= length t)%nat as E by (clear; induction t as [|[]]; cbn; lia).
  apply N.le_lt_trans with (2 ^ 58 * 58); [|reflexivity]. apply N.mul_le_mono; [apply N.pow_le_mono_r; lia|lia].
Qed.
Lemma exact_app : forall a b, exact_steps (a ++ b) = (exact_steps a + exact_steps b)%nat.
Proof. induction a as [|[] a IH]; intro b; cbn; rewrite ?IH; reflexivity. Qed.
Lemma exact_le : forall t, (exact_steps t <= length t)%nat.
Proof. induction t as [|[]]; cbn; lia. Qed.
Lemma rk_less : forall t u, (length u <= 57)%nat -> (exact_steps t <= exact_steps u)%nat -> (length t <= length u)%nat ->
  (exact_steps t < exact_steps u)%nat \/ (length t < length u)%nat -> rk t < rk u.
Proof.
  intros t u L E M D. rewrite !rk_value by lia.
  assert (2 ^ N.of_nat (S (exact_steps t)) <= 2 ^ N.of_nat (S (exact_steps u))) as A by (apply N.pow_le_mono_r; lia).
  destruct D as [D|D].
  - apply N.lt_le_trans with (2 ^ N.of_nat (S (exact_steps u)) * N.of_nat (S (length t))); [|apply N.mul_le_mono_l; lia].
    apply N.mul_lt_mono_pos_r; [lia|]. apply N.pow_lt_mono_r; lia.
  - apply N.le_lt_trans with (2 ^ N.of_nat (S (exact_steps u)) * N.of_nat (S (length t))); [apply N.mul_le_mono_r, A|].
    apply N.mul_lt_mono_pos_l; [|lia]. apply N.neq_0_lt_0, N.pow_nonzero. discriminate.
Qed.

Section Views.
Variable w : world.
Variable c : context.
Variable R : list (list token * rule).
Hypothesis CB : cat_name (matchers c) = CBody.
Hypothesis D : describes (cat_rules (matchers c)) R.
Hypothesis Si : forall t r, In (t, r) R -> simple r.

Definition at_ (p : docpath) (F : list str) : Prop := to_vec p = S_ "$" :: F.
Definition found (t : list token) (F : list str) (rl : rulelist) : Prop :=
  accepts t F /\ rl_logic rl = And /\ rl_rules rl <> [] /\ (forall r, In r (rl_rules rl) <-> In (t, r) R) /\
  rl_cascaded rl = Nat.ltb (length t) (length F).
Lemma accepts_root : forall t F, accepts (TRoot :: t) (S_ "$" :: F) <-> accepts t F.
Proof. intros t F. split; [intro H; inversion H; subst; assumption|intro H; constructor; [reflexivity|exact H]]. Qed.
Lemma cand_iff : forall p F t, at_ p F -> candidate (to_vec p) (from_tokens (TRoot :: t)) <-> accepts t F /\ (S (exact_steps t) < 64)%nat.
Proof.
  intros p F t A. unfold candidate, matching_path. rewrite A. cbn [from_tokens path_tokens exact_steps]. rewrite accepts_root. reflexivity.
Qed.
Lemma force_found : forall p F rl, at_ p F -> in_force (matchers c) p rl ->
  exists t, found t F rl /\ forall t' r', In (t', r') R -> accepts t' F -> (S (exact_steps t') < 64)%nat -> rk t' <= rk t.
Proof.
  intros p F rl A (b & e & a & E & Ca & Hb & Ha & ->).
  assert (In e (cat_rules (matchers c))) as Ie by (rewrite E; apply in_or_app; right; left; reflexivity).
  destruct (proj1 D _ Ie) as (t & Et & Lg & NE & S). exists t. rewrite Et in Ca. apply (cand_iff p F t A) in Ca. split.
  - split; [apply Ca|]. unfold applied. cbn [rl_logic rl_rules rl_cascaded]. split; [exact Lg|]. split; [exact NE|]. split; [exact S|].
    rewrite Et, A. reflexivity.
  - intros t' r' I' A' L'. destruct (proj2 D _ _ I') as [rl' J]. assert (candidate (to_vec p) (from_tokens (TRoot :: t'))) as Ct.
    { apply (cand_iff p F t' A). split; assumption. }
    rewrite E in J. apply in_app_or in J. unfold rk. rewrite <- Et. destruct J as [J|[J|J]].
    + exact (Hb _ J Ct).
    + rewrite J. reflexivity.
    + apply N.lt_le_incl. exact (Ha _ J Ct).
Qed.
Lemma none_force : forall p F, at_ p F -> (forall t r, In (t, r) R -> ~ accepts t F) -> no_rule_at (matchers c) p.
Proof.
  intros p F A N e Ie Ce. destruct (proj1 D _ Ie) as (t & Et & _ & NE & S). rewrite Et in Ce. apply (cand_iff p F t A) in Ce.
  destruct (rl_rules (snd e)) as [|r rs] eqn:Er; [exact (NE eq_refl)|]. apply (N t r); [apply S; left; reflexivity|apply Ce].
Qed.
Lemma some_force : forall p F, at_ p F -> (exists t r, In (t, r) R /\ accepts t F /\ (S (exact_steps t) < 64)%nat) ->
  exists rl, in_force (matchers c) p rl.
Proof.
  intros p F A (t & r & I & Ac & L). destruct (matcher_is_defined (matchers c) (to_vec p)) eqn:E.
  - eexists. apply select_in_force; [exact CB|exact E].
  - exfalso. apply defined_iff in E; [|exact CB]. destruct (proj2 D _ _ I) as [rl J]. apply (E _ J). apply (cand_iff p F t A). split; assumption.
Qed.
Lemma bodyr : body_rules (matchers c).
Proof.
  split; [exact CB|]. intros e r Ie Ir. destruct (proj1 D _ Ie) as (t & _ & _ & _ & S). apply S in Ir. apply Si in Ir.
  destruct r; try contradiction; apply ra_leaf; exact I.
Qed.
Lemma noentry : no_entry_rules (matchers c).
Proof.
  intros e r Ie Ir. destruct (proj1 D _ Ie) as (t & _ & _ & _ & S). apply S in Ir. apply Si in Ir. destruct r; try contradiction; reflexivity.
Qed.
Lemma keys_simple : forall p e a, keys_ok w c p e a <-> if allow c then forall k, In k e -> In k a else e = a.
Proof.
  intros p e a. unfold keys_ok. split.
  - intros [[(rl & x & (b & q & t & Ec & _) & Ix & Ex)|K] _]; [|exact K]. exfalso.
    assert (In (q, rl) (cat_rules (matchers c))) as Iq by (rewrite Ec; apply in_or_app; right; left; reflexivity).
    rewrite (noentry _ _ Iq Ix) in Ex. discriminate.
  - intro K. split; [right; exact K|]. intros x rl d _ _ F Id. exfalso. destruct (in_force_rules _ _ _ _ F Id) as (y & Iy & Iy2).
    pose proof (noentry _ _ Iy Iy2). discriminate.
Qed.
Lemma key_in : forall A k (l : list (str * A)), In k (keys l) <-> exists v, obj_get k l = Some v.
Proof. intros. split; [apply obj_get_keys|]. intros [v E]. apply obj_get_in in E. change k with (fst (k, v)). apply in_map, E. Qed.
Definition keys_match (e a : list str) : Prop := (forall k, In k e -> In k a) /\ (allow c = false -> forall k, In k a -> In k e).
Lemma keys_sorted : forall p (e a : list (str * json)), StronglySorted str_lt (keys e) -> StronglySorted str_lt (keys a) ->
  (keys_ok w c p (keys e) (keys a) <-> keys_match (keys e) (keys a)).
Proof.
  intros p e a Se Sa. rewrite keys_simple. unfold keys_match. destruct (allow c).
  - split; [intro K; split; [exact K|discriminate]|intros [K _]; exact K].
  - split; [intros ->; split; auto|]. intros [K1 K2]. apply sorted_keys_eq; [exact Se|exact Sa|]. intro k. split; [apply K1|apply K2; reflexivity].
Qed.

(** An array, an object and a scalar, with and without rules. *)
Lemma array_none : forall p e a, no_rule_at (matchers c) p ->
  (compare_json w p (JArr e) (JArr a) c = [] <->
   length e = length a /\ forall i x y, nth_error e i = Some x -> nth_error a i = Some y -> compare_json w (join p (show_N (N.of_nat i))) x y c = []).
Proof.
  intros p e a N. rewrite (C67_body_matching w c _ _ _ bodyr). split.
  - intro H. inversion H as [? ? ? ? Sc|? ? ? ? ? Sc| | |? ? ? ? _ L E|? ? ? ? rl F|? ? ? ? rl r F]; subst; try contradiction;
      try (exfalso; exact (no_rule_vs_force _ _ _ CB N F)).
    split; [exact L|]. intros i x y Ex Ey. apply (C67_body_matching w c _ _ _ bodyr). eapply E; eassumption.
  - intros [L E]. apply cf_array; [exact N|exact L|]. intros i x y Ex Ey. apply (C67_body_matching w c _ _ _ bodyr). eapply E; eassumption.
Qed.
Lemma array_rules : forall p rl e a, in_force (matchers c) p rl -> rl_logic rl = And -> rl_rules rl <> [] ->
  (forall r, In r (rl_rules rl) -> simple r) ->
  (compare_json w p (JArr e) (JArr a) c = [] <->
   e = [] \/ ((forall r, In r (rl_rules rl) -> array_satisfies r (rl_cascaded rl) e a) /\ elements_match w p e a c)).
Proof.
  intros p rl e a F Lg NE Sr. rewrite (C14_body_array w c bodyr p rl e a F). unfold combined. rewrite Lg.
  assert (Q : forall r, In r (rl_rules rl) -> (array_rule w c p (rl_cascaded rl) r e a <-> e = [] \/ (array_satisfies r (rl_cascaded rl) e a /\ elements_match w p e a c))).
  { intros r Ir. specialize (Sr r Ir). split.
    - intro Z. inversion Z as [|? ? ? ? ? ? Z1|? ? ? ? ? |? ? ? ? ? ? Z1|? ? ? ? ? ? Z1 Z2 Z3 Z4 Z5]; subst; try contradiction; [left; reflexivity|].
      right. split; [exact Z3|]. split; [|exact Z5]. intros i x y Ex Ey. apply (C67_body_matching w c _ _ _ bodyr). eapply Z4; eassumption.
    - intros [->|[Z3 [Z4 Z5]]]; [apply ar_empty|]. apply ar_other; try (intros; intro; subst; contradiction); try assumption.
      intros i x y Ex Ey. apply (C67_body_matching w c _ _ _ bodyr). eapply Z4; eassumption. }
  split.
  - intros [_ H]. destruct (rl_rules rl) as [|r0 rs] eqn:Er; [destruct (NE eq_refl)|].
    destruct (proj1 (Q r0 (or_introl eq_refl)) (H r0 (or_introl eq_refl))) as [->|[_ EM]]; [left; reflexivity|].
    destruct e as [|x e]; [left; reflexivity|]. right. split; [|exact EM]. intros r Ir.
    destruct (proj1 (Q r Ir) (H r Ir)) as [|[Z _]]; [discriminate|exact Z].
  - intro H. split; [exact NE|]. intros r Ir. apply Q; [exact Ir|]. destruct H as [->|[H1 H2]]; [left; reflexivity|right; split; [apply H1, Ir|exact H2]].
Qed.
Definition entries_match (p : docpath) (e a : list (str * json)) : Prop :=
  forall k x y, obj_get k e = Some x -> obj_get k a = Some y -> compare_json w (join p k) x y c = [].
Lemma object_none : forall p e a, no_rule_at (matchers c) p -> StronglySorted str_lt (keys e) -> StronglySorted str_lt (keys a) ->
  (compare_json w p (JObj e) (JObj a) c = [] <-> keys_match (keys e) (keys a) /\ entries_match p e a).
Proof.
  intros p e a N Se Sa. rewrite (C67_body_matching w c _ _ _ bodyr). split.
  - intro H. inversion H as [? ? ? ? Sc|? ? ? ? ? Sc|? ? ? ? _ K E|? ? ? ? rl F| | |]; subst; try contradiction;
      try (exfalso; exact (no_rule_vs_force _ _ _ CB N F)).
    split; [apply (keys_sorted p e a Se Sa), K|]. intros k x y Ex Ey. apply (C67_body_matching w c _ _ _ bodyr). eapply E; [apply obj_get_in, Ex|exact Ey].
  - intros [K E]. apply cf_object; [exact N|apply (keys_sorted p e a Se Sa), K|]. intros k x y Ex Ey. apply (C67_body_matching w c _ _ _ bodyr).
    eapply E; [|exact Ey]. apply obj_get_nodup; [apply sorted_nodup, Se|exact Ex].
Qed.
Lemma object_rules : forall p rl e a, in_force (matchers c) p rl -> rl_rules rl <> [] -> (forall r, In r (rl_rules rl) -> simple r) ->
  StronglySorted str_lt (keys e) -> StronglySorted str_lt (keys a) ->
  (compare_json w p (JObj e) (JObj a) c = [] <->
   (forall r, In r (rl_rules rl) -> object_satisfies r (rl_cascaded rl) e a) /\ keys_match (keys e) (keys a) /\ entries_match p e a).
Proof.
  intros p rl e a F NE Sr Se Sa. rewrite (C14_body_object w c bodyr p rl e a F).
  assert (Q : forall r, In r (rl_rules rl) -> (object_rule w c p (rl_cascaded rl) r e a <-> object_satisfies r (rl_cascaded rl) e a /\ keys_match (keys e) (keys a) /\ entries_match p e a)).
  { intros r Ir. specialize (Sr r Ir). rewrite <- (keys_sorted p e a Se Sa). split.
    - intro Z. inversion Z as [| |? ? ? ? ? ? _ Z1 Z2 Z3]; subst; try contradiction. split; [exact Z1|]. split; [exact Z2|].
      intros k x y Ex Ey. apply (C67_body_matching w c _ _ _ bodyr). eapply Z3; [apply obj_get_in, Ex|exact Ey].
    - intros (Z1 & Z2 & Z3). apply or_other; [right; destruct r; try contradiction; intros []|exact Z1|exact Z2|].
      intros k x y Ex Ey. apply (C67_body_matching w c _ _ _ bodyr). eapply Z3; [|exact Ey]. apply obj_get_nodup; [apply sorted_nodup, Se|exact Ex]. }
  split.
  - intros [_ H]. destruct (rl_rules rl) as [|r0 rs] eqn:Er; [destruct (NE eq_refl)|].
    split; [|exact (proj2 (proj1 (Q r0 (or_introl eq_refl)) (H r0 (or_introl eq_refl))))]. intros r Ir. apply Q; [exact Ir|apply H, Ir].
  - intros (H1 & H2 & H3). split.
    + intros -> Al. destruct a as [|[k v] a]; [reflexivity|]. destruct (proj2 H2 Al k (or_introl eq_refl)).
    + intros r Ir. apply Q; [exact Ir|]. split; [apply H1, Ir|split; assumption].
Qed.
Lemma scalar_none : forall p e a, no_rule_at (matchers c) p -> is_scalar e -> (compare_json w p e a c = [] <-> same_scalar e a).
Proof.
  intros p e a N Sc. rewrite (C67_body_matching w c _ _ _ bodyr). split.
  - intro H. inversion H as [? ? ? ? _ _ S|? ? ? ? rl _ F| | | | |]; subst; try contradiction; [exact S|exfalso; exact (no_rule_vs_force _ _ _ CB N F)].
  - intro S. apply cf_scalar; assumption.
Qed.
Lemma type_mismatch : forall p e a, ~ is_scalar e -> type_of e <> type_of a -> compare_json w p e a c <> [].
Proof. intros p e a NS T H. apply (C67_body_matching w c _ _ _ bodyr) in H. exact (mismatched_type w c p e a NS T H). Qed.

(** Locations below. *)
Lemma at_join : forall p F k, at_ p F -> at_ (join p k) (F ++ [token_display (part_token k)]).
Proof. intros p F k A. unfold at_. rewrite to_vec_join, A. reflexivity. Qed.
Lemma display_canonical : forall k, canonical_key k -> token_display (part_token k) = k.
Proof.
  intros k Ck. unfold part_token. destruct (str_eqb k (S_ "*")) eqn:E1; [apply str_eqb_eq in E1; subst; reflexivity|].
  destruct (str_eqb k (S_ "[*]")) eqn:E2; [apply str_eqb_eq in E2; subst; reflexivity|].
  destruct (parse_usize k) as [i|] eqn:E3; [|reflexivity]. cbn [token_display]. symmetry. apply Ck, E3.
Qed.
Lemma show_canonical : forall i, canonical_key (show_N i).
Proof.
  intros i j E. rewrite parse_usize_digits in E by (apply show_N_nonempty || apply show_N_digits). rewrite show_N_value in E.
  destruct (i <? two64); [injection E as ->; reflexivity|discriminate].
Qed.
Lemma at_index : forall p F i, at_ p F -> at_ (join p (show_N i)) (F ++ [show_N i]).
Proof. intros p F i A. pose proof (at_join p F (show_N i) A) as H. rewrite (display_canonical _ (show_canonical i)) in H. exact H. Qed.
Lemma at_key : forall p F k, canonical_key k -> at_ p F -> at_ (join p k) (F ++ [k]).
Proof. intros p F k Ck A. pose proof (at_join p F k A) as H. rewrite (display_canonical _ Ck) in H. exact H. Qed.
End Views.
