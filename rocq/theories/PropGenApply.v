(** C71: generators change exactly the addressed values of a JSON body. *)
From Coq Require Import String List Arith NArith Lia Bool Permutation Sorted.
From Verif Require Import Base PathExp Json Text Generators GenApply SpecGenApply GenApplyProofs.
Import ListNotations.
Open Scope N_scope.

Local Opaque show_N.

Lemma generated_outcome : forall gen n x, outcome_of gen x (generated (gen n) x).
Proof. intros gen n x. exists n. unfold generated. destruct (gen n x) as [y|] eqn:E; [left|right]; auto. Qed.

(** * A uniform view of [changed] *)
Definition selK (t : token) (k : str) : bool := match t with TField n => str_eqb k n | TStar => true | _ => false end.
Definition selI (t : token) (n : nat) : bool := match t with TIndex i => N.of_nat n =? i | TStarIndex => true | _ => false end.
Fixpoint idx (P : nat -> json -> json -> Prop) (s : nat) (l l' : list json) : Prop :=
  match l, l' with
  | [], [] => True
  | x :: l0, y :: l0' => P s x y /\ idx P (S s) l0 l0'
  | _, _ => False
  end.

Lemma idx_length : forall P l s l', idx P s l l' -> length l' = length l.
Proof.
  intros P. induction l as [|x l IH]; intros s [|y l'] H; cbn [idx] in H; try contradiction; [reflexivity|].
  cbn [length]. rewrite (IH (S s) l'); [reflexivity|apply H].
Qed.
Lemma idx_nth : forall P l s l', idx P s l l' <-> length l' = length l /\
  forall n x y, nth_error l n = Some x -> nth_error l' n = Some y -> P (s + n)%nat x y.
Proof.
  intros P. induction l as [|x l IH]; intros s [|y l']; cbn [idx length].
  - split; [intros _; split; [reflexivity|]; intros [|n] a b H; discriminate|intros _; exact I].
  - split; [intros []|intros [H _]; discriminate].
  - split; [intros []|intros [H _]; discriminate].
  - rewrite (IH (S s) l'). split.
    + intros (H1 & H2 & H3). split; [f_equal; exact H2|]. intros [|n] a b Ha Hb; cbn in Ha, Hb.
      * injection Ha as <-. injection Hb as <-. rewrite Nat.add_0_r. exact H1.
      * rewrite <- Nat.add_succ_comm. apply H3; assumption.
    + intros (H1 & H2). split; [|split].
      * specialize (H2 O x y eq_refl eq_refl). rewrite Nat.add_0_r in H2. exact H2.
      * injection H1 as H1. exact H1.
      * intros n a b Ha Hb. rewrite Nat.add_succ_comm. apply H2; assumption.
Qed.
Lemma idx_forall2 : forall (Q : json -> json -> Prop) P l s l', (forall n x y, P n x y <-> Q x y) -> (idx P s l l' <-> Forall2 Q l l').
Proof.
  intros Q P. induction l as [|x l IH]; intros s [|y l'] H; cbn [idx].
  - split; [constructor|intros _; exact I].
  - split; [intros []|intro F; inversion F].
  - split; [intros []|intro F; inversion F].
  - rewrite (IH (S s) l' H), (H s x y). split; [intros [A B]; constructor; assumption|intro F; inversion F; subst; split; assumption].
Qed.
Lemma idx_same : forall P l s l', (forall n x y, P n x y <-> y = x) -> (idx P s l l' <-> l' = l).
Proof.
  intros P l s l' H. rewrite (idx_forall2 (fun x y => y = x) P l s l' H). split.
  - intro F. induction F; [reflexivity|]. subst. reflexivity.
  - intros ->. induction l; constructor; auto.
Qed.
Lemma keys_same : forall (m m' : list (str * json)), Forall2 (fun kv kv' => fst kv' = fst kv /\ snd kv' = snd kv) m m' <-> m' = m.
Proof.
  intros m m'. split.
  - intro F. induction F as [|[k x] [k' x'] m m' [H1 H2] F IH]; [reflexivity|]. cbn [fst snd] in *. subst. reflexivity.
  - intros ->. induction m; constructor; auto.
Qed.

Definition objrel (P : str -> json -> json -> Prop) (m m' : list (str * json)) : Prop :=
  Forall2 (fun kv kv' => fst kv' = fst kv /\ P (fst kv) (snd kv) (snd kv')) m m'.

Lemma changed_step : forall R t rest v v', t <> TRoot ->
  (changed R (t :: rest) v v' <->
   match v with
   | JObj m => exists m', v' = JObj m' /\ objrel (fun k x y => if selK t k then changed R rest x y else y = x) m m'
   | JArr l => exists l', v' = JArr l' /\ idx (fun n x y => if selI t n then changed R rest x y else y = x) 0 l l'
   | _ => v' = v
   end).
Proof.
  intros R t rest v v' Nt.
  assert (SameO : forall m, v' = JObj m <-> exists m', v' = JObj m' /\ objrel (fun k x y => y = x) m m').
  { intro m. split; [intros ->; exists m; split; [reflexivity|apply keys_same; reflexivity]|].
    intros (m' & -> & H). apply keys_same in H. rewrite H. reflexivity. }
  assert (SameA : forall l, v' = JArr l <-> exists l', v' = JArr l' /\ idx (fun n x y => y = x) 0 l l').
  { intro l. split; [intros ->; exists l; split; [reflexivity|apply idx_same; [reflexivity|reflexivity]]|].
    intros (l' & -> & H). apply idx_same in H; [|reflexivity]. rewrite H. reflexivity. }
  destruct t; [contradiction| | | |]; destruct v; cbn [changed selK selI]; try reflexivity; try apply SameO; try apply SameA.
  - split; intros (l' & -> & H); exists l'; (split; [reflexivity|]).
    + apply idx_nth. exact H.
    + apply idx_nth in H. exact H.
  - split; intros (l' & -> & H); exists l'; (split; [reflexivity|]).
    + apply (idx_forall2 (changed R rest)); [reflexivity|exact H].
    + apply (idx_forall2 (changed R rest)) in H; [exact H|reflexivity].
Qed.

Lemma objrel_in : forall P m m' k y, objrel P m m' -> In (k, y) m' -> exists x, In (k, x) m /\ P k x y.
Proof.
  intros P m m' k y F. induction F as [|[k1 x1] [k2 y2] m m' [E H] F IH]; intro Hin; [destruct Hin|].
  cbn [fst snd] in *. destruct Hin as [Hin|Hin].
  - injection Hin as <- <-. subst k2. exists x1. split; [left; reflexivity|exact H].
  - destruct (IH Hin) as (x & A & B). exists x. split; [right; exact A|exact B].
Qed.
Lemma idx_in : forall P l s l' n y, idx P s l l' -> nth_error l' n = Some y -> exists x, nth_error l n = Some x /\ P (s + n)%nat x y.
Proof.
  intros P l s l' n y H E. pose proof H as H0. apply idx_nth in H. destruct H as [L H].
  destruct (nth_error l n) as [x|] eqn:Ex; [exists x; split; [reflexivity|apply H; assumption]|].
  exfalso. apply nth_error_None in Ex. assert (n < length l')%nat by (apply nth_error_Some; congruence). lia.
Qed.

Lemma plain_step : forall t rest v, t <> TRoot -> (plain_keys (t :: rest) v <->
  match v with
  | JObj m => forall k x, In (k, x) m -> selK t k = true -> plain_key k /\ (rest = [] -> k <> []) /\ plain_keys rest x
  | JArr l => forall n x, nth_error l n = Some x -> selI t n = true -> plain_keys rest x
  | _ => True
  end).
Proof.
  intros t rest v Nt. destruct t; [contradiction| | | |]; destruct v; cbn [plain_keys selK selI]; try reflexivity;
    try (split; [intros _; intros; discriminate|intros _; exact I]).
  - split.
    + intros H k x Hi Hs. destruct (str_eqb_spec k name) as [->|]; [|discriminate]. apply H, Hi.
    + intros H x Hi. apply (H name x Hi). apply str_eqb_refl.
  - split.
    + intros H n x Hi Hs. apply N.eqb_eq in Hs. subst i. rewrite Nat2N.id in H. apply H, Hi.
    + intros H x Hi. apply (H _ x Hi). rewrite N2Nat.id. apply N.eqb_refl.
  - split; [intros H k x Hi _; apply H, Hi|intros H k x Hi; apply (H k x Hi); reflexivity].
  - split; [intros H n x Hi _; apply H, (nth_error_In _ _ Hi)|].
    intros H x Hi. apply In_nth_error in Hi. destruct Hi as [n Hi]. apply (H n x Hi). reflexivity.
Qed.

Lemma apart_step : forall a b p q, apart (a :: p) (b :: q) -> a <> TRoot /\ b <> TRoot /\
  (forall k, selK a k = true -> selK b k = true -> apart p q) /\ (forall n, selI a n = true -> selI b n = true -> apart p q).
Proof.
  intros a b p q H. destruct a, b; cbn [apart] in H; try contradiction; (split; [discriminate|split; [discriminate|]]); cbn [selK selI];
    (split; [intros k A B|intros n A B]); try discriminate; try exact H.
  - apply str_eqb_eq in A, B. destruct H as [H|H]; [exfalso; apply H; rewrite <- A; exact B|exact H].
  - apply N.eqb_eq in A, B. subst. destruct H as [H|H]; [contradiction|exact H].
Qed.

(** A change elsewhere does not touch the keys of a path. *)
Lemma changed_plain : forall R p q v u, apart p q -> changed R p v u -> plain_keys q v -> plain_keys q u.
Proof.
  intros R. induction p as [|a p IH]; intros [|b q] v u A C P; try contradiction.
  destruct (apart_step a b p q A) as (Na & Nb & AK & AI). apply (changed_step R a p v u Na) in C. apply (plain_step b q v Nb) in P.
  apply (plain_step b q u Nb). destruct v; try (subst u; exact P).
  - destruct C as (l' & -> & C). intros n y Hy Sb. destruct (idx_in _ _ _ _ _ _ C Hy) as (x & Hx & C'). cbn [Nat.add] in C'.
    pose proof (P n x Hx Sb) as Px. destruct (selI a n) eqn:Sa; [apply (IH q x y (AI n Sa Sb) C' Px)|subst y; exact Px].
  - destruct C as (m' & -> & C). intros k y Hy Sb. destruct (objrel_in _ _ _ _ _ C Hy) as (x & Hx & C').
    destruct (P k x Hx Sb) as (P1 & P2 & P3). split; [exact P1|split; [exact P2|]].
    destruct (selK a k) eqn:Sa; [apply (IH q x y (AK k Sa Sb) C' P3)|subst y; exact P3].
Qed.

Lemma objrel_compose : forall (P Q P' Q' : str -> json -> json -> Prop) m m' m'', objrel P m m' -> objrel Q m' m'' ->
  (forall k x y z, P k x y -> Q k y z -> exists y', Q' k x y' /\ P' k y' z) ->
  exists mm, objrel Q' m mm /\ objrel P' mm m''.
Proof.
  intros P Q P' Q' m m' m'' F. revert m''. induction F as [|[k x] [k1 y] m m' [E H] F IH]; intros m'' G K.
  - inversion G; subst. exists []. split; constructor.
  - inversion G as [|? [k2 z] ? ? [E2 H2] G2]; subst. cbn [fst snd] in *. subst k1 k2.
    destruct (K k x y z H H2) as (y' & A & B). destruct (IH _ G2 K) as (mm & C & D).
    exists ((k, y') :: mm). split; constructor; cbn [fst snd]; auto.
Qed.
Lemma idx_compose : forall (P Q P' Q' : nat -> json -> json -> Prop) l s l' l'', idx P s l l' -> idx Q s l' l'' ->
  (forall n x y z, P n x y -> Q n y z -> exists y', Q' n x y' /\ P' n y' z) ->
  exists ll, idx Q' s l ll /\ idx P' s ll l''.
Proof.
  intros P Q P' Q'. induction l as [|x l IH]; intros s [|y l'] [|z l''] F G K; cbn [idx] in F, G; try contradiction.
  - exists []. split; exact I.
  - destruct F as [F1 F2], G as [G1 G2]. destruct (K s x y z F1 G1) as (y' & A & B).
    destruct (IH (S s) l' l'' F2 G2 K) as (ll & C & D). exists (y' :: ll). cbn [idx]. auto.
Qed.

(** Changes at paths that part can be made in either order. *)
Lemma changed_commute : forall R1 R2 p q v u w, apart p q -> changed R1 p v u -> changed R2 q u w ->
  exists u', changed R2 q v u' /\ changed R1 p u' w.
Proof.
  intros R1 R2. induction p as [|a p IH]; intros [|b q] v u w A C D; try contradiction.
  destruct (apart_step a b p q A) as (Na & Nb & AK & AI).
  apply (changed_step R1 a p v u Na) in C. apply (changed_step R2 b q u w Nb) in D.
  assert (Kk : forall (sa sb : bool) x y z, (sa = true -> sb = true -> apart p q) ->
     (if sa then changed R1 p x y else y = x) -> (if sb then changed R2 q y z else z = y) ->
     exists y', (if sb then changed R2 q x y' else y' = x) /\ (if sa then changed R1 p y' z else z = y')).
  { intros sa sb x y z Hap H1 H2. destruct sa, sb.
    - apply (IH q x y z (Hap eq_refl eq_refl) H1 H2).
    - subst z. exists x. split; [reflexivity|exact H1].
    - subst y. exists z. split; [exact H2|reflexivity].
    - subst. exists x. split; reflexivity. }
  destruct v as [|bb|nn|ss|l|m].
  1-4: subst u; eexists; split; [apply (changed_step R2 b q _ _ Nb); exact D|apply (changed_step R1 a p _ _ Na); rewrite D; reflexivity].
  - destruct C as (l' & -> & C). destruct D as (l'' & -> & D).
    destruct (idx_compose _ _ (fun n x y => if selI a n then changed R1 p x y else y = x) (fun n x y => if selI b n then changed R2 q x y else y = x) _ _ _ _ C D) as (ll & E & F).
    + intros n x y z H1 H2. apply (Kk _ _ x y z (AI n) H1 H2).
    + exists (JArr ll). split; [apply (changed_step R2 b q _ _ Nb); exists ll; auto|apply (changed_step R1 a p _ _ Na); exists l''; auto].
  - destruct C as (m' & -> & C). destruct D as (m'' & -> & D).
    destruct (objrel_compose _ _ (fun k x y => if selK a k then changed R1 p x y else y = x) (fun k x y => if selK b k then changed R2 q x y else y = x) _ _ _ C D) as (mm & E & F).
    + intros k x y z H1 H2. apply (Kk _ _ x y z (AK k) H1 H2).
    + exists (JObj mm). split; [apply (changed_step R2 b q _ _ Nb); exists mm; auto|apply (changed_step R1 a p _ _ Na); exists m''; auto].
Qed.

Lemma changed_wf : forall (R : json -> json -> Prop) p v u, (forall x y, R x y -> json_wf x -> json_wf y) -> ~ In TRoot p ->
  changed R p v u -> json_wf v -> json_wf u.
Proof.
  intros R. induction p as [|t p IH]; intros v u HR NR C W; [exact (HR _ _ C W)|].
  assert (Nt : t <> TRoot) by (intro; apply NR; left; assumption).
  assert (NR' : ~ In TRoot p) by (intro Hi; apply NR; right; exact Hi).
  apply (changed_step R t p v u Nt) in C. destruct v; try (subst u; exact W).
  - destruct C as (l' & -> & C). apply json_wf_arr in W. apply json_wf_arr. rewrite Forall_forall in *. intros y Hy.
    apply In_nth_error in Hy. destruct Hy as [n Hy]. destruct (idx_in _ _ _ _ _ _ C Hy) as (x & Hx & C').
    pose proof (W x (nth_error_In _ _ Hx)) as Wx. destruct (selI t (0 + n)); [exact (IH x y HR NR' C' Wx)|subst y; exact Wx].
  - destruct C as (m' & -> & C). apply json_wf_obj in W. apply json_wf_obj. destruct W as [So W].
    assert (Ek : keys m' = keys m).
    { clear -C. unfold keys. induction C as [|kv kv' m m' [E _] C IHc]; [reflexivity|]. cbn [map]. rewrite E, IHc. reflexivity. }
    split; [rewrite Ek; exact So|]. rewrite Forall_forall in *. intros [k y] Hy. destruct (objrel_in _ _ _ _ _ C Hy) as (x & Hx & C').
    pose proof (W (k, x) Hx) as Wx. cbn [snd] in *. destruct (selK t k); [exact (IH x y HR NR' C' Wx)|subst y; exact Wx].
Qed.

Lemma Forall2_impl : forall A B (P Q : A -> B -> Prop) l l', (forall a b, P a b -> Q a b) -> Forall2 P l l' -> Forall2 Q l l'.
Proof. intros A B P Q l l' H F. induction F; constructor; auto. Qed.

Lemma changed_impl : forall (R R' : json -> json -> Prop) p v u, (forall x y, R x y -> R' x y) -> changed R p v u -> changed R' p v u.
Proof.
  intros R R'. induction p as [|t p IH]; intros v u HR C; [apply HR, C|].
  destruct t; [exact C| | | |].
  all: destruct v; try exact C; cbn [changed] in *.
  - destruct C as (m' & E & C). exists m'. split; [exact E|]. eapply Forall2_impl; [|exact C]. intros kv kv' [A B].
    split; [exact A|]. destruct (str_eqb (fst kv) name); [apply IH; assumption|exact B].
  - destruct C as (l' & E & L & C). exists l'. split; [exact E|split; [exact L|]]. intros n x x' H1 H2. specialize (C n x x' H1 H2).
    destruct (N.of_nat n =? i); [apply IH; assumption|exact C].
  - destruct C as (m' & E & C). exists m'. split; [exact E|]. eapply Forall2_impl; [|exact C]. intros kv kv' [A B].
    split; [exact A|apply IH; assumption].
  - destruct C as (l' & E & C). exists l'. split; [exact E|]. eapply Forall2_impl; [|exact C]. intros x y H. apply IH; assumption.
Qed.

(** C71: one generator changes exactly the values its path addresses, each into an outcome of
    the generator (or not at all when the generator fails). *)
Theorem C71_exactly_the_addressed_values_change : forall gen key path v,
  below_root key path -> json_wf v -> plain_keys path v ->
  changed (outcome_of gen) path v (apply_key gen key v).
Proof.
  intros gen key path v [Et NR] W P.
  assert (Er' : resolve_path v key = map (join_with [47]) (filter (of_length (length ([[]] : list str) + length path)) (leaf_paths [[]] [] (query_graph path v)))).
  { unfold resolve_path. rewrite Et. reflexivity. }
  unfold apply_key.
  destruct path as [|t path].
  - rewrite Et. assert (En : resolve_path v key = []) by (rewrite Er'; reflexivity). rewrite En. cbn [length Nat.eqb changed].
    apply generated_outcome.
  - rewrite (leaves_routes (t :: path) v [[]] [] NR P) in Er' by discriminate.
    assert (Em : map (app [[]]) (routes (t :: path) v) = map (cons []) (routes (t :: path) v)) by (apply map_ext; reflexivity).
    change (resolve_path v key = map (join_with [47]) (map (app [[]]) (routes (t :: path) v))) in Er'. rewrite Em in Er'. clear Em.
    assert (F : Forall (fun r => r <> [] /\ Forall plain_key r) (routes (t :: path) v)).
    { rewrite Forall_forall. intros r Hr. destruct (routes_plain _ _ _ P Hr) as [A B]. split; [|exact A]. intros ->. discriminate. }
    assert (G : apply_key gen key v = apply_routes gen 0 (routes (t :: path) v) v).
    { unfold apply_key. rewrite Er'. rewrite <- (apply_pointers_routes gen _ 0%nat v F).
      destruct (map (join_with [47]) (map (cons []) (routes (t :: path) v))); [|reflexivity].
      rewrite Et. reflexivity. }
    unfold apply_key in G. rewrite G.
    eapply changed_impl; [|apply (routes_change gen (t :: path) v 0%nat NR W)].
    intros x y [n ->]. apply generated_outcome.
Qed.

(** * Several generators *)
Definition active (mode : test_mode) (gs : list (docpath * generator * (nat -> json -> option json))) :=
  filter (fun g => corresponds_to_mode (snd (fst g)) mode) gs.
Definition outcomes_wf (gen : nat -> json -> option json) : Prop := forall n x y, gen n x = Some y -> json_wf x -> json_wf y.

Lemma outcome_wf : forall gen x y, outcomes_wf gen -> outcome_of gen x y -> json_wf x -> json_wf y.
Proof. intros gen x y H (n & [E|[_ ->]]) W; [exact (H n x y E W)|exact W]. Qed.

Lemma changed_by_perm : forall gs gs' v w, Permutation gs gs' ->
  ForallOrdPairs (fun a b => apart (fst a) (fst b)) gs ->
  (forall a b, apart a b -> apart b a) ->
  changed_by gs v w -> changed_by gs' v w /\ ForallOrdPairs (fun a b => apart (fst a) (fst b)) gs'.
Proof.
  intros gs gs' v w P A Sy. revert v w A. induction P as [|[p g] gs gs' P IH|[p g] [q h] gs|gs gs1 gs' P1 IH1 P2 IH2]; intros v w A C.
  - split; [exact C|exact A].
  - inversion A as [|? ? A1 A2]; subst. destruct C as (u & C1 & C2). destruct (IH u w A2 C2) as [C3 A3].
    split; [exists u; split; assumption|]. constructor; [|exact A3]. eapply Permutation_Forall; [exact P|exact A1].
  - inversion A as [|? ? A1 A2]; subst. inversion A2 as [|? ? A3 A4]; subst. inversion A1 as [|? ? A5 A6]; subst. cbn [fst] in *.
    destruct C as (u1 & C1 & u2 & C2 & C3).
    destruct (changed_commute _ _ q p v u1 u2 A5 C1 C2) as (u' & D1 & D2). split.
    + exists u'. split; [exact D1|]. exists u2. split; assumption.
    + constructor; [constructor; [apply Sy; exact A5|exact A3]|]. constructor; assumption.
  - destruct (IH1 v w A C) as [C1 A1]. apply IH2; assumption.
Qed.

Lemma apart_sym : forall p q, apart p q -> apart q p.
Proof.
  induction p as [|a p IH]; intros [|b q] H; try contradiction. destruct a, b; cbn [apart] in *; try contradiction; auto.
  - destruct H as [H|H]; [left; intro; apply H; symmetry; assumption|right; apply IH, H].
  - destruct H as [H|H]; [left; intro; apply H; symmetry; assumption|right; apply IH, H].
Qed.

(** C71: generators for places that do not overlap change exactly those places, and the order
    in which the hash map yields them is of no importance. *)
Theorem C71_order_does_not_matter : forall mode gs gs' v,
  Forall (fun g => exists path, below_root (fst (fst g)) path /\ plain_keys path v /\ outcomes_wf (snd g)) gs ->
  ForallOrdPairs (fun g h => apart (tl (path_tokens (fst (fst g)))) (tl (path_tokens (fst (fst h))))) gs ->
  json_wf v -> Permutation (active mode gs) gs' ->
  changed_by (map (fun g => (tl (path_tokens (fst (fst g))), snd g)) gs') v (process_json mode gs v).
Proof.
  intros mode gs gs' v F A W P.
  assert (Main : forall gs v, Forall (fun g => exists path, below_root (fst (fst g)) path /\ plain_keys path v /\ outcomes_wf (snd g)) gs ->
     ForallOrdPairs (fun g h => apart (tl (path_tokens (fst (fst g)))) (tl (path_tokens (fst (fst h))))) gs -> json_wf v ->
     changed_by (map (fun g => (tl (path_tokens (fst (fst g))), snd g)) (active mode gs)) v (process_json mode gs v)).
  { clear. induction gs as [|[[key x] gen] gs IH]; intros v F A W; [reflexivity|].
    inversion F as [|? ? (path & B & Pl & Wg) F2]; subst. inversion A as [|? ? A1 A2]; subst. cbn [fst snd] in *.
    change (process_json mode ((key, x, gen) :: gs) v) with
      (process_json mode gs (if corresponds_to_mode x mode then apply_key gen key v else v)).
    unfold active. cbn [filter fst snd]. destruct (corresponds_to_mode x mode); [|apply IH; assumption].
    cbn [map changed_by fst snd].
    assert (Et : tl (path_tokens key) = path) by (rewrite (proj1 B); reflexivity). rewrite Et in *.
    pose proof (C71_exactly_the_addressed_values_change gen key path v B W Pl) as C.
    exists (apply_key gen key v). split; [exact C|]. apply IH.
    - rewrite Forall_forall in *. intros g Hg. destruct (F2 g Hg) as (q & Bq & Pq & Wq). exists q. split; [exact Bq|]. split; [|exact Wq].
      eapply changed_plain; [|exact C|exact Pq]. specialize (A1 g Hg). rewrite (proj1 Bq) in A1. exact A1.
    - exact A2.
    - eapply changed_wf; [|exact (proj2 B)|exact C|exact W]. intros a b. apply outcome_wf. exact Wg. }
  specialize (Main gs v F A W).
  refine (proj1 (changed_by_perm _ _ _ _ (Permutation_map _ P) _ apart_sym Main)).
  clear -A. induction A as [|g gs A1 A IH]; [constructor|]. unfold active. cbn [filter].
  destruct (corresponds_to_mode (snd (fst g)) mode); [|exact IH]. cbn [map]. constructor; [|exact IH].
  rewrite Forall_forall in *. intros h Hh. apply in_map_iff in Hh. destruct Hh as (h0 & <- & Hh). apply filter_In in Hh. apply A1, Hh.
Qed.

(** C71: a body is left alone by generators of the other mode. *)
Theorem C71_other_mode_changes_nothing : forall mode gs v,
  Forall (fun g => match snd (fst g), mode with
                   | GProviderState _ _, Consumer | GMockServerURL _ _, Provider => True
                   | _, _ => False
                   end) gs -> process_json mode gs v = v.
Proof.
  intros mode gs v F. induction F as [|[[key x] gen] gs H F IH]; [reflexivity|]. cbn [fst snd] in H.
  unfold process_json in *. cbn [fold_left fst snd]. destruct x, mode; try contradiction; exact IH.
Qed.

(** C71 (why): keys with a slash or a tilde, and an empty last key, miss their place or hit another one. *)
Theorem C71_why_plain_keys :
  (* {"a/b": 1, "a": {"b": 2}} with a generator for $['a/b'] *)
  (let v := JObj [(S_ "a", JObj [(S_ "b", JNum (PosInt 2))]); (S_ "a/b", JNum (PosInt 1))] in
   apply_key (fun _ _ => Some JNull) (push_field path_root (S_ "a/b")) v =
   JObj [(S_ "a", JObj [(S_ "b", JNull)]); (S_ "a/b", JNum (PosInt 1))]) /\
  (let v := JObj [(S_ "a~0", JNum (PosInt 1))] in
   apply_key (fun _ _ => Some JNull) (push_field path_root (S_ "a~0")) v = v) /\
  (let v := JObj [([], JNum (PosInt 1))] in
   apply_key (fun _ _ => Some JNull) (push_field path_root []) v = v).
Proof. repeat split; reflexivity. Qed.

(** C71 (why): for places that overlap ($.a and $.* here) the order of the hash map decides. *)
Theorem C71_why_overlap : exists g h v,
  process_json Consumer [g; h] v <> process_json Consumer [h; g] v.
Proof.
  exists (push_field path_root (S_ "a"), GRandomBoolean, fun _ _ => Some (JBool true)),
         (push_star path_root, GRandomBoolean, fun _ _ => Some (JBool false)),
         (JObj [(S_ "a", JNum (PosInt 1))]).
  vm_compute. discriminate.
Qed.

Definition ex_doc : json :=
  JObj [(S_ "id", JNum (PosInt 1)); (S_ "items", JArr [JObj [(S_ "n", JStr (S_ "x")); (S_ "z", JNull)]; JObj [(S_ "n", JStr (S_ "y"))]; JNull])].
Definition ex_path1 : docpath := push_field (push_star_index (push_field path_root (S_ "items"))) (S_ "n").
Definition ex_path2 : docpath := push_field path_root (S_ "id").
Definition ex_gen (n : nat) (x : json) : option json := Some (JStr (show_N (N.of_nat n))).

Example C71_example :
  below_root ex_path1 [TField (S_ "items"); TStarIndex; TField (S_ "n")] /\ json_wf ex_doc /\
  plain_keys [TField (S_ "items"); TStarIndex; TField (S_ "n")] ex_doc /\
  apart [TField (S_ "items"); TStarIndex; TField (S_ "n")] [TField (S_ "id")] /\ outcomes_wf ex_gen /\
  apply_key ex_gen ex_path1 ex_doc =
    JObj [(S_ "id", JNum (PosInt 1)); (S_ "items", JArr [JObj [(S_ "n", JStr (S_ "0")); (S_ "z", JNull)]; JObj [(S_ "n", JStr (S_ "1"))]; JNull])].
Proof.
  split; [split; [reflexivity|intros [H|[H|[H|[]]]]; discriminate]|]. split.
  - apply json_wf_obj. split; [repeat constructor|]. repeat constructor.
  - split.
    + cbn [plain_keys ex_doc]. intros x [H|[H|[]]]; [discriminate|]. injection H as <-.
      assert (K : plain_key (S_ "items") /\ plain_key (S_ "n")) by (split; split; cbn; intuition discriminate).
      destruct K as [K1 K2]. split; [exact K1|split; [discriminate|]]. intros y [<-|[<-|[<-|[]]]]; try exact I;
        intros z _; (split; [exact K2|split; [discriminate|exact I]]).
    + split; [left; discriminate|]. split; [|vm_compute; reflexivity]. intros n x y E _. injection E as <-. exact I.
Qed.
