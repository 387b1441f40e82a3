(** C122: where the findings are, and what strictness and the version change. *)
From Coq Require Import Ascii String List Arith NArith ZArith Lia Bool.
From Verif Require Import Base PathExp Json Text MatchingRules Matchers Headers ContentType Http Merge PactFile OldFile FileCheck SpecFileCheck PropFileCheck.
Import ListNotations.
Open Scope N_scope.

Definition places (l : list finding) : list str := map fi_path l.
Lemma places_app : forall a b p, In p (places (a ++ b)) <-> In p (places a) \/ In p (places b).
Proof. intros a b p. unfold places. rewrite map_app, in_app_iff. tauto. Qed.
Lemma places_one : forall p l m q, In q (places [mkFinding p l m]) <-> q = p.
Proof. intros p l m q. cbn. split; [intros [H|[]]; now symmetry|intros ->; now left]. Qed.
Lemma places_unknown : forall names f o q, In q (places (unknown (map S_ names) f o)) <-> exists k, unknown_name names o k /\ q = fi_path (f k).
Proof.
  intros names f o q. unfold places. rewrite in_map_iff. split.
  - intros [x [<- Hx]]. apply unknown_in in Hx as [k [v [Hk [Hn ->]]]]. exists k. split; [split; [now exists v|exact Hn]|reflexivity].
  - intros [k [[[v Hk] Hn] ->]]. exists (f k). split; [reflexivity|]. apply unknown_in. now exists k, v.
Qed.
Lemma places_each : forall A (f : nat -> A -> list finding) l q, In q (places (each_of f 0 l)) <-> exists i a, nth_error l i = Some a /\ In q (places (f i a)).
Proof.
  intros A f l q. unfold places. rewrite in_map_iff. split.
  - intros [x [<- Hx]]. apply each_of_in in Hx as [i [a [Hi Hx]]]. exists i, a. split; [exact Hi|]. apply in_map, Hx.
  - intros [i [a [Hi Hx]]]. apply in_map_iff in Hx as [x [<- Hx]]. exists x. split; [reflexivity|]. apply each_of_in. now exists i, a.
Qed.
Lemma some_inj : forall (A : Type) (a b : A), Some a = Some b -> a = b.
Proof. intros A a b H. now injection H. Qed.
Lemma obj_inj : forall o o', JObj o = JObj o' -> o = o'.
Proof. intros o o' H. now injection H. Qed.
Ltac same_obj := repeat match goal with H : JObj _ = JObj _ |- _ => apply obj_inj in H; subst end.
Ltac same_get := unfold at_name, absent in *; repeat match goal with
  | H : obj_get ?k ?o = Some ?a, G : obj_get ?k ?o = Some ?b |- _ => rewrite H in G; apply some_inj in G; subst
  | H : obj_get ?k ?o = Some ?a, G : obj_get ?k ?o = None |- _ => rewrite H in G; discriminate
  end.
Lemma not_object : forall j, (match j with JObj _ => False | _ => True end) -> ~ an_object j.
Proof. intros j H [o ->]. exact H. Qed.
Lemma object_is : forall o, an_object (JObj o).
Proof. intro o. now exists o. Qed.
Ltac notobj := match goal with H : ~ an_object (JObj ?o) |- _ => destruct (H (object_is o)) end.

Section Places.
Variable semver : str -> option (N * N).

Lemma place_participant : forall path j strict q,
  In q (places (verify_participant path j strict)) <-> exists p, participant_fault j p /\ q = path ++ p.
Proof.
  intros path j strict q.
  assert (Z : forall p : str, p = p ++ []) by (intro; now rewrite app_nil_r).
  destruct j as [| | | | |o]; cbn [verify_participant]; rewrite ?places_one.
  all: try (split; [intros ->; exists []; split; [constructor; now apply not_object|apply Z]
                   |intros [p [H ->]]; inversion H; subst; try discriminate; now rewrite app_nil_r]).
  rewrite places_app. change [S_ "name"] with (map S_ ["name"%string]). rewrite places_unknown.
  split.
  - intros [H|[k [Hk ->]]].
    + exists (S_ "/name"). split.
      * apply (PF_name _ o eq_refl). rewrite there_iff. destruct (obj_get (S_ "name") o) as [n|]; [|tauto]. rewrite text_iff.
        destruct (is_string n); [destruct H|discriminate].
      * destruct (obj_get (S_ "name") o) as [n|]; [destruct (is_string n); [destruct H|]|]; apply places_one in H; exact H.
    + exists []. split; [exact (PF_unknown _ o k eq_refl Hk)|apply Z].
  - intros [p [H ->]]. inversion H as [H0|o' E H0|o' k E H0]; subst; same_obj.
    + notobj.
    + left. rewrite there_iff in H0. destruct (obj_get (S_ "name") o') as [n|]; [rewrite text_iff in H0; destruct (is_string n); [now destruct H0|]|]; now apply places_one.
    + right. exists k. split; [exact H0|]. now rewrite app_nil_r.
Qed.
Lemma place_state : forall path j strict q, In q (places (verify_state path j strict)) <-> ~ neat_state j /\ q = path.
Proof.
  intros path j strict q. rewrite <- (neat_state_iff path j strict).
  assert (A : forall x, In x (verify_state path j strict) -> fi_path x = path).
  { intros x Hx. destruct j as [| | |s| |o]; cbn [verify_state] in Hx; try (destruct Hx as [<-|[]]; reflexivity); [destruct Hx|].
    apply in_app_or in Hx as [Hx|Hx].
    - destruct (obj_get (S_ "name") o) as [n|]; [destruct (is_string n); [destruct Hx|]|]; destruct Hx as [<-|[]]; reflexivity.
    - apply in_app_or in Hx as [Hx|Hx].
      + destruct (obj_get (S_ "params") o) as [n|]; [destruct (is_object n); [destruct Hx|]|destruct Hx]; destruct Hx as [<-|[]]; reflexivity.
      + apply unknown_in in Hx as [k [v [_ [_ ->]]]]. reflexivity. }
  destruct (verify_state path j strict) as [|x l].
  - cbn. split; [intros []|intros [H _]; now apply H].
  - split.
    + intro H. unfold places in H. apply in_map_iff in H as [y [<- Hy]]. split; [discriminate|apply A, Hy].
    + intros [_ ->]. cbn [places map]. left. apply A. now left.
Qed.
Lemma place_interaction : forall path j strict v q,
  In q (places (verify_interaction path j strict v)) <-> exists p, interaction_fault v j p /\ q = path ++ p.
Proof.
  intros path j strict v q.
  assert (Z : forall p : str, p = p ++ []) by (intro; now rewrite app_nil_r).
  destruct j as [| | | | |o]; cbn [verify_interaction]; rewrite ?places_one.
  all: try (split; [intros ->; exists []; split; [constructor; now apply not_object|apply Z]
                   |intros [p [H ->]]; inversion H; subst; try discriminate; now rewrite app_nil_r]).
  rewrite !places_app, names_of_interaction, places_unknown.
  split.
  - intros [H|[H|[H|[k [Hk ->]]]]].
    + destruct (obj_get (S_ "description") o) as [d|] eqn:E.
      * destruct (is_string d) eqn:F; [destruct H|]. apply places_one in H. subst. exists (S_ "/description"). split; [|reflexivity].
        apply (IF_description _ _ o d eq_refl E). rewrite text_iff. congruence.
      * apply places_one in H. subst. exists []. split; [exact (IF_missing _ _ o eq_refl E)|apply Z].
    + unfold states_of in H. destruct (obj_get (S_ "providerStates") o) as [s|] eqn:E1; [destruct H|].
      destruct (obj_get (S_ "providerState") o) as [s|] eqn:E2.
      * cbn [snd] in H. destruct (at_least_v3 v) eqn:V; [|destruct H]. apply places_one in H. subst. exists []. split; [|apply Z].
        apply (IF_old _ _ o s eq_refl); try assumption. now apply newer_iff.
      * destruct (obj_get (S_ "provider_state") o) as [s|] eqn:E3; [|destruct H]. cbn [snd] in H. apply places_one in H. subst. exists [].
        split; [|apply Z]. exact (IF_older _ _ o s eq_refl E1 E2 E3).
    + assert (G : forall l, states_in o l ->
          In q (places (each_of (fun n s => verify_state (path ++ S_ "/providerStates/" ++ show_N (N.of_nat n)) s strict) 0 l)) ->
          exists p, interaction_fault v (JObj o) p /\ q = path ++ p).
      { intros l Hl Hq. apply places_each in Hq as [n [s [Hn Hq]]]. apply place_state in Hq as [Hs ->].
        exists (S_ "/providerStates/" ++ show_N (N.of_nat n)). split; [|reflexivity]. exact (IF_state _ _ o l n s eq_refl Hl Hn Hs). }
      unfold states_of in H. destruct (obj_get (S_ "providerStates") o) as [s|] eqn:E1.
      * cbn [fst] in H. destruct s as [| | | |l|]; try (apply places_one in H; subst; exists []; split; [|apply Z];
          apply (IF_array _ _ o _ eq_refl E1); intros [l0 F]; discriminate).
        apply (G l); [exact (SI_new o l E1)|exact H].
      * destruct (obj_get (S_ "providerState") o) as [s|] eqn:E2.
        -- apply (G [s]); [exact (SI_old o s E1 E2)|exact H].
        -- destruct (obj_get (S_ "provider_state") o) as [s|] eqn:E3; [|destruct H].
           apply (G [s]); [exact (SI_older o s E1 E2 E3)|exact H].
    + exists []. split; [exact (IF_unknown _ _ o k eq_refl Hk)|apply Z].
  - intros [p [H ->]].
    inversion H as [H0|o' d E H0 H1|o' E H0|o' s E H0 H1|o' s E H0 H1 H2|o' s E H0 H1 H2|o' l n s E H0 H1 H2|o' k E H0]; subst; same_obj.
    + notobj.
    + left. unfold at_name in H0. rewrite H0. rewrite text_iff in H1. destruct (is_string d); [now destruct H1|]. now apply places_one.
    + left. unfold absent in H0. rewrite H0. apply places_one. now rewrite app_nil_r.
    + right. right. left. unfold states_of, at_name in *. rewrite H0. cbn [fst].
      destruct s as [| | | |l|]; try (apply places_one; now rewrite app_nil_r). destruct H1. now exists l.
    + right. left. unfold states_of, at_name, absent in *. rewrite H1, H2. cbn [snd]. apply newer_iff in H0. rewrite H0.
      apply places_one. now rewrite app_nil_r.
    + right. left. unfold states_of, at_name, absent in *. rewrite H0, H1, H2. cbn [snd]. apply places_one. now rewrite app_nil_r.
    + right. right. left.
      assert (G : fst (states_of path v o') = JArr l).
      { unfold states_of. inversion H0 as [l0 F|s0 F0 F1|s0 F0 F1 F2]; subst; unfold at_name, absent in *; rewrite ?F, ?F0, ?F1, ?F2; reflexivity. }
      rewrite G. apply places_each. exists n, s. split; [exact H1|]. apply place_state. split; [exact H2|reflexivity].
    + right. right. right. exists k. split; [exact H0|]. now rewrite app_nil_r.
Qed.
Lemma place_specification : forall j q,
  In q (places (verify_specification semver j)) <-> exists p, specification_fault semver j p /\ q = S_ "/metadata/pactSpecification" ++ p.
Proof.
  intros j q.
  destruct j as [| | | | |o]; cbn [verify_specification]; rewrite ?places_one.
  all: try (split; [intros ->; exists []; split; [constructor; now apply not_object|reflexivity]
                   |intros [p [H ->]]; inversion H; subst; try discriminate; now rewrite app_nil_r]).
  split.
  - intro H. destruct (obj_get (S_ "version") o) as [t|] eqn:E.
    + exists (S_ "/version"). split.
      * apply (SF_version _ _ o t eq_refl E). destruct t as [| | |t| |]; try (intros [t0 [v [F _]]]; discriminate).
        rewrite <- version_iff. destruct (parsed_version semver t); [destruct H|discriminate].
      * destruct t as [| | |t| |]; try (apply places_one in H; exact H).
        destruct (parsed_version semver t); [destruct H|apply places_one in H; exact H].
    + apply places_one in H. exists []. split; [exact (SF_missing _ _ o eq_refl E)|exact H].
  - intros [p [H ->]]. inversion H as [H0|o' E H0|o' t E H0 H1]; subst; same_obj.
    + notobj.
    + unfold absent in H0. rewrite H0. now apply places_one.
    + unfold at_name in H0. rewrite H0. destruct t as [| | |t| |]; try now apply places_one.
      rewrite <- version_iff in H1. destruct (parsed_version semver t); [now destruct H1|]. now apply places_one.
Qed.
Lemma place_metadata : forall j q,
  In q (places (verify_metadata semver j)) <-> exists p, metadata_fault semver j p /\ q = S_ "/metadata" ++ p.
Proof.
  intros j q.
  destruct j as [| | | | |o]; cbn [verify_metadata]; rewrite ?places_one.
  all: try (split; [intros ->; exists []; split; [constructor; now apply not_object|reflexivity]
                   |intros [p [H ->]]; inversion H; subst; try discriminate; now rewrite app_nil_r]).
  set (old := match obj_get (S_ "pactSpecification") o with
     | Some s => (Some s, [])
     | None =>
         match obj_get (S_ "pact-specification") o with
         | Some s => (Some s, [mkFinding (S_ "/metadata") LWarning (S_ "'pact-specification' is deprecated, use 'pactSpecification' instead")])
         | None => (None, [])
         end
     end).
  assert (F : (fst old = None -> obj_get (S_ "pactSpecification") o = None /\ obj_get (S_ "pact-specification") o = None) /\
              (forall s, fst old = Some s <-> at_name "pactSpecification" o s \/ absent "pactSpecification" o /\ at_name "pact-specification" o s) /\
              (In q (places (snd old)) <-> q = S_ "/metadata" /\ absent "pactSpecification" o /\ ~ absent "pact-specification" o)).
  { unfold old, at_name, absent. destruct (obj_get (S_ "pactSpecification") o) as [s|].
    - cbn [fst snd]. split; [discriminate|]. split.
      + intro s'. split; [now left|intros [H|[H _]]; [exact H|discriminate]].
      + split; [intros []|intros [_ [H _]]; discriminate].
    - destruct (obj_get (S_ "pact-specification") o) as [s|]; cbn [fst snd].
      + split; [discriminate|]. split.
        * intro s'. split; [intro H; right; now split|intros [H|[_ H]]; [discriminate|exact H]].
        * rewrite places_one. split; [intros ->; repeat split; discriminate|tauto].
      + split; [now split|]. split.
        * intro s'. split; [discriminate|intros [H|[_ H]]; exact H].
        * split; [intros []|intros [_ [_ H]]; now destruct H]. }
  destruct F as [F0 [F1 F2]]. destruct old as [spec l]. cbn [fst snd] in *.
  rewrite !places_app, F2. split.
  - intros [[-> [H1 H2]]|[H|H]].
    + exists []. split; [exact (MF_dashed _ _ o eq_refl H1 H2)|reflexivity].
    + destruct (obj_has (S_ "pactSpecificationVersion") o) eqn:E; [|destruct H]. apply places_one in H. exists []. split; [|exact H].
      apply (MF_old _ _ o eq_refl). rewrite <- has_absent. congruence.
    + destruct spec as [s|]; [|destruct H]. apply place_specification in H as [p [Hp ->]].
      exists (S_ "/pactSpecification" ++ p). split; [|reflexivity].
      apply (MF_specification _ _ o s p eq_refl); [apply F1; reflexivity|exact Hp].
  - intros [p [H ->]]. inversion H as [H0|o' E H0|o' E H0 H1|o' s p' E H0 H1]; subst; same_obj.
    + notobj.
    + right. left. rewrite <- has_absent in H0. destruct (obj_has (S_ "pactSpecificationVersion") o'); [now apply places_one|now destruct H0].
    + left. now split.
    + right. right. apply F1 in H0. subst spec. apply place_specification. exists p'. split; [exact H1|reflexivity].
Qed.
(** There is a finding at a place exactly if something there is wrong. *)
Theorem C122_places : forall j strict v q, (exists f, In f (verify_pact semver j strict v) /\ fi_path f = q) <-> fault semver v j q.
Proof.
  intros j strict v q.
  assert (X : (exists f, In f (verify_pact semver j strict v) /\ fi_path f = q) <-> In q (places (verify_pact semver j strict v))).
  { unfold places. rewrite in_map_iff. split; intros [f [A B]]; now exists f. }
  rewrite X. clear X.
  destruct j as [| | | | |o]; cbn [verify_pact]; rewrite ?places_one.
  all: try (split; [intros ->; constructor; now apply not_object|intro H; inversion H; subst; try discriminate; reflexivity]).
  rewrite !places_app.
  change [S_ "consumer"; S_ "provider"; S_ "interactions"; S_ "metadata"] with (map S_ ["consumer"; "provider"; "interactions"; "metadata"]%string).
  rewrite places_unknown. split.
  - intros [H|[H|[H|[H|[k [Hk ->]]]]]].
    + destruct (obj_get (S_ "consumer") o) as [c|] eqn:E.
      * apply place_participant in H as [p [Hp ->]]. exact (F_consumer _ _ _ o c p eq_refl E Hp).
      * apply places_one in H. subst. exact (F_no_consumer _ _ _ o eq_refl E).
    + destruct (obj_get (S_ "provider") o) as [c|] eqn:E.
      * apply place_participant in H as [p [Hp ->]]. exact (F_provider _ _ _ o c p eq_refl E Hp).
      * apply places_one in H. subst. exact (F_no_provider _ _ _ o eq_refl E).
    + destruct (obj_get (S_ "interactions") o) as [l|] eqn:E.
      * destruct l as [| | | |l|]; try (apply places_one in H; subst; apply (F_no_interactions _ _ _ o eq_refl);
          rewrite there_iff, E; intros [i [l0 F]]; discriminate).
        destruct l as [|i l].
        -- apply places_one in H. subst. apply (F_no_interactions _ _ _ o eq_refl). rewrite there_iff, E. intros [i [l0 F]]; discriminate.
        -- apply places_each in H as [n [a [Hn H]]]. apply place_interaction in H as [p [Hp ->]]. rewrite <- app_assoc.
           exact (F_interaction _ _ _ o _ n a p eq_refl E Hn Hp).
      * apply places_one in H. subst. apply (F_no_interactions _ _ _ o eq_refl). rewrite there_iff, E. tauto.
    + destruct (obj_get (S_ "metadata") o) as [m|] eqn:E; [|destruct H].
      apply place_metadata in H as [p [Hp ->]]. exact (F_metadata _ _ _ o m p eq_refl E Hp).
    + exact (F_unknown _ _ _ o k eq_refl Hk).
  - intro H.
    inversion H as [H0|o' E H0|o' c p E H0 H1|o' E H0|o' c p E H0 H1|o' E H0|o' l n i p E H0 H1 H2|o' m p E H0 H1|o' k E H0]; subst; same_obj.
    + notobj.
    + left. unfold absent in H0. rewrite H0. now apply places_one.
    + left. unfold at_name in H0. rewrite H0. apply place_participant. now exists p.
    + right. left. unfold absent in H0. rewrite H0. now apply places_one.
    + right. left. unfold at_name in H0. rewrite H0. apply place_participant. now exists p.
    + right. right. left. rewrite there_iff in H0. destruct (obj_get (S_ "interactions") o') as [l|]; [|now apply places_one].
      destruct l as [| | | |l|]; try now apply places_one. destruct l as [|i l]; [now apply places_one|]. destruct H0. now exists i, l.
    + right. right. left. unfold at_name in H0. rewrite H0. destruct l as [|a l]; [destruct n; discriminate|].
      apply places_each. exists n, i. split; [exact H1|]. apply place_interaction. exists p. split; [exact H2|]. now rewrite <- app_assoc.
    + right. right. right. left. unfold at_name in H0. rewrite H0. apply place_metadata. now exists p.
    + right. right. right. right. exists k. split; [exact H0|reflexivity].
Qed.

(** ** Strictness *)
Definition stricter (a b : finding) : Prop :=
  fi_path a = fi_path b /\ fi_message a = fi_message b /\ (fi_level a = fi_level b \/ fi_level a = LWarning /\ fi_level b = LError).
Lemma stricter_refl : forall l, Forall2 stricter l l.
Proof. intro l. induction l; constructor; [split; [reflexivity|split; [reflexivity|left; reflexivity]]|assumption]. Qed.
Lemma stricter_one : forall p m, Forall2 stricter [mkFinding p (by_strict false) m] [mkFinding p (by_strict true) m].
Proof. intros p m. constructor; [split; [reflexivity|split; [reflexivity|right; split; reflexivity]]|constructor]. Qed.
Lemma stricter_unknown : forall names (p m : str -> str) (o : list (str * json)),
  Forall2 stricter (unknown names (fun k => mkFinding (p k) (by_strict false) (m k)) o) (unknown names (fun k => mkFinding (p k) (by_strict true) (m k)) o).
Proof.
  intros names p m o. unfold unknown. induction o as [|[k v] o IH]; cbn [flat_map fst]; [constructor|].
  destruct (known names k); [exact IH|]. apply Forall2_app; [apply stricter_one|exact IH].
Qed.
Lemma stricter_each : forall A (f g : nat -> A -> list finding) l n, (forall i a, Forall2 stricter (f i a) (g i a)) -> Forall2 stricter (each_of f n l) (each_of g n l).
Proof. intros A f g l. induction l as [|a l IH]; intros n H; cbn [each_of]; [constructor|]. apply Forall2_app; [apply H|apply IH, H]. Qed.
Lemma stricter_participant : forall path j, Forall2 stricter (verify_participant path j false) (verify_participant path j true).
Proof.
  intros path j. destruct j as [| | | | |o]; try apply stricter_refl. cbn [verify_participant]. apply Forall2_app.
  - destruct (obj_get (S_ "name") o); [apply stricter_refl|apply stricter_one].
  - apply (stricter_unknown _ (fun _ => path)).
Qed.
Lemma stricter_state : forall path j, Forall2 stricter (verify_state path j false) (verify_state path j true).
Proof.
  intros path j. destruct j as [| | | | |o]; try apply stricter_refl. cbn [verify_state]. apply Forall2_app; [apply stricter_refl|].
  apply Forall2_app; [apply stricter_refl|]. apply (stricter_unknown _ (fun _ => path)).
Qed.
Lemma stricter_interaction : forall path j v, Forall2 stricter (verify_interaction path j false v) (verify_interaction path j true v).
Proof.
  intros path j v. destruct j as [| | | | |o]; try apply stricter_refl. cbn [verify_interaction]. apply Forall2_app.
  - destruct (obj_get (S_ "description") o); [apply stricter_refl|apply stricter_one].
  - apply Forall2_app; [apply stricter_refl|]. apply Forall2_app; [|apply (stricter_unknown _ (fun _ => path))].
    destruct (fst (states_of path v o)); try apply stricter_refl. apply stricter_each. intros. apply stricter_state.
Qed.
Theorem C122_strictness : forall j v,
  Forall2 (fun a b => fi_path a = fi_path b /\ fi_message a = fi_message b /\ (fi_level a = fi_level b \/ fi_level a = LWarning /\ fi_level b = LError))
    (verify_pact semver j false v) (verify_pact semver j true v).
Proof.
  intros j v. change (Forall2 stricter (verify_pact semver j false v) (verify_pact semver j true v)).
  destruct j as [| | | | |o]; try apply stricter_refl. cbn [verify_pact].
  apply Forall2_app; [destruct (obj_get (S_ "consumer") o); [apply stricter_participant|apply stricter_one]|].
  apply Forall2_app; [destruct (obj_get (S_ "provider") o); [apply stricter_participant|apply stricter_one]|].
  apply Forall2_app.
  { destruct (obj_get (S_ "interactions") o) as [l|]; [|apply stricter_refl]. destruct l as [| | | |l|]; try apply stricter_refl.
    destruct l as [|i l]; [apply stricter_refl|]. apply stricter_each. intros. apply stricter_interaction. }
  apply Forall2_app; [apply stricter_refl|]. apply (stricter_unknown _ (fun k => S_ "/" ++ k)).
Qed.

(** ** The version *)
Definition old_state_name : str := S_ "'providerState' is deprecated, use 'providerStates' instead".
Definition other (f : finding) : bool := negb (str_eqb (fi_message f) old_state_name).
Lemma all_kept : forall l, (forall f, In f l -> fi_message f <> old_state_name) -> filter other l = l.
Proof.
  induction l as [|f l IH]; intro H; [reflexivity|]. cbn [filter]. unfold other at 1.
  destruct (str_eqb_spec (fi_message f) old_state_name) as [E|_]; [destruct (H f (or_introl eq_refl) E)|].
  cbn [negb]. f_equal. apply IH. intros g Hg. apply H. now right.
Qed.
Lemma head_differs : forall a b s t, a <> b -> (a :: s : str) <> b :: t.
Proof. intros a b s t H E. injection E as E _. contradiction. Qed.
Ltac not_old := unfold old_state_name; match goal with |- ?m <> _ => let E := fresh in intro E; vm_compute in E; discriminate end.
Lemma kept_unknown : forall A names (p : str -> str) l m e (o : list (str * A)), match m with c :: _ => c <> 39 | [] => False end ->
  filter other (unknown names (fun k => mkFinding (p k) l (m ++ k ++ e)) o) = unknown names (fun k => mkFinding (p k) l (m ++ k ++ e)) o.
Proof.
  intros A names p l m e o H. apply all_kept. intros f Hf. apply unknown_in in Hf as [k [v [_ [_ ->]]]]. cbn [fi_message].
  destruct m as [|c m]; [contradiction|]. apply head_differs. exact H.
Qed.
Lemma filter_each : forall A (f g : nat -> A -> list finding) l n, (forall i a, filter other (f i a) = g i a) -> filter other (each_of f n l) = each_of g n l.
Proof. intros A f g l. induction l as [|a l IH]; intros n H; cbn [each_of]; [reflexivity|]. rewrite filter_app, H, IH by exact H. reflexivity. Qed.
Lemma kept_participant : forall path j strict, filter other (verify_participant path j strict) = verify_participant path j strict.
Proof.
  intros path j strict. destruct j as [| | | | |o]; try reflexivity. cbn [verify_participant]. rewrite filter_app.
  rewrite (kept_unknown _ _ (fun _ => path)) by (vm_compute; discriminate). f_equal.
  destruct (obj_get (S_ "name") o) as [n|]; [destruct (is_string n)|]; reflexivity.
Qed.
Lemma kept_state : forall path j strict, filter other (verify_state path j strict) = verify_state path j strict.
Proof.
  intros path j strict. destruct j as [| | | | |o]; try reflexivity. cbn [verify_state]. rewrite !filter_app.
  rewrite (kept_unknown _ _ (fun _ => path)) by (vm_compute; discriminate). f_equal; [|f_equal].
  - destruct (obj_get (S_ "name") o) as [n|]; [destruct (is_string n)|]; reflexivity.
  - destruct (obj_get (S_ "params") o) as [n|]; [destruct (is_object n)|]; reflexivity.
Qed.
Lemma kept_metadata : forall j, filter other (verify_metadata semver j) = verify_metadata semver j.
Proof.
  intro j. apply all_kept. intros f Hf. destruct j as [| | | | |o]; cbn [verify_metadata] in Hf; try (destruct Hf as [<-|[]]; not_old).
  assert (V : forall s, In f (verify_specification semver s) -> fi_message f <> old_state_name).
  { clear Hf. intros s Hf. destruct s as [| | | | |s]; cbn [verify_specification] in Hf; try (destruct Hf as [<-|[]]; not_old).
    destruct (obj_get (S_ "version") s) as [t|]; [|destruct Hf as [<-|[]]; not_old].
    destruct t as [| | |t| |]; try (destruct Hf as [<-|[]]; not_old).
    destruct (parsed_version semver t); [destruct Hf|]. destruct Hf as [<-|[]]. cbn [fi_message]. intro E.
    apply (f_equal (@rev N)) in E. rewrite !rev_app_distr in E. vm_compute in E. discriminate. }
  assert (W : In f (if obj_has (S_ "pactSpecificationVersion") o
       then [mkFinding (S_ "/metadata") LWarning (S_ "'pactSpecificationVersion' is deprecated, use 'pactSpecification/version' instead")]
       else []) -> fi_message f <> old_state_name).
  { destruct (obj_has (S_ "pactSpecificationVersion") o); intros []; [subst; not_old|contradiction]. }
  destruct (obj_get (S_ "pactSpecification") o) as [s|].
  - apply in_app_or in Hf as [[]|Hf]. apply in_app_or in Hf as [Hf|Hf]; [exact (W Hf)|exact (V s Hf)].
  - destruct (obj_get (S_ "pact-specification") o) as [s|].
    + apply in_app_or in Hf as [Hf|Hf]; [destruct Hf as [<-|[]]; not_old|]. apply in_app_or in Hf as [Hf|Hf]; [exact (W Hf)|exact (V s Hf)].
    + apply in_app_or in Hf as [[]|Hf]. apply in_app_or in Hf as [Hf|[]]. exact (W Hf).
Qed.
Lemma kept_interaction : forall path j strict v, ~ newer_than_v2 v ->
  filter other (verify_interaction path j strict SV3) = verify_interaction path j strict v.
Proof.
  intros path j strict v H. apply not_newer_iff in H. destruct j as [| | | | |o]; try reflexivity. cbn [verify_interaction]. rewrite !filter_app.
  rewrite (kept_unknown _ _ (fun _ => path)) by (vm_compute; discriminate). f_equal; [|f_equal].
  - destruct (obj_get (S_ "description") o) as [n|]; [destruct (is_string n)|]; reflexivity.
  - unfold states_of. destruct (obj_get (S_ "providerStates") o); [reflexivity|].
    destruct (obj_get (S_ "providerState") o); [cbn [snd]; rewrite H; reflexivity|]. destruct (obj_get (S_ "provider_state") o); reflexivity.
  - assert (E : fst (states_of path SV3 o) = fst (states_of path v o)).
    { unfold states_of. destruct (obj_get (S_ "providerStates") o); [reflexivity|]. destruct (obj_get (S_ "providerState") o); [reflexivity|].
      destruct (obj_get (S_ "provider_state") o); reflexivity. }
    rewrite E. f_equal. destruct (fst (states_of path v o)); try reflexivity. apply filter_each. intros. apply kept_state.
Qed.
(** The version matters for one thing: the old name for the state of an interaction. *)
Theorem C122_version : forall j strict v,
  (newer_than_v2 v -> verify_pact semver j strict v = verify_pact semver j strict SV3) /\
  (~ newer_than_v2 v -> verify_pact semver j strict v =
     filter (fun f => negb (str_eqb (fi_message f) (S_ "'providerState' is deprecated, use 'providerStates' instead"))) (verify_pact semver j strict SV3)).
Proof.
  intros j strict v. split.
  { intro V. apply newer_iff in V. destruct v; try discriminate; reflexivity. }
  intro V. apply not_newer_iff in V.
  change (verify_pact semver j strict v = filter other (verify_pact semver j strict SV3)).
  destruct j as [| | | | |o]; try reflexivity. cbn [verify_pact]. symmetry. rewrite !filter_app.
  rewrite (kept_unknown _ _ (fun k => S_ "/" ++ k)) by (vm_compute; discriminate).
  f_equal; [|f_equal; [|f_equal; [|f_equal]]].
  - destruct (obj_get (S_ "consumer") o); [apply kept_participant|reflexivity].
  - destruct (obj_get (S_ "provider") o); [apply kept_participant|reflexivity].
  - destruct (obj_get (S_ "interactions") o) as [l|]; [|reflexivity]. destruct l as [| | | |l|]; try reflexivity.
    destruct l as [|i l]; [reflexivity|]. apply filter_each. intros. apply kept_interaction. now apply not_newer_iff.
  - destruct (obj_get (S_ "metadata") o); [apply kept_metadata|reflexivity].
Qed.
(** The other kinds of pact are not looked at. *)
Theorem C122_other_kinds : forall path j,
  (verify_message_pact path j = [] <-> exists o, j = JObj o) /\ (verify_v4_pact j = [] <-> exists o, j = JObj o) /\
  (forall f, In f (verify_message_pact path j) -> fi_path f = path /\ fi_level f = LError) /\
  (forall f, In f (verify_v4_pact j) -> fi_path f = S_ "/" /\ fi_level f = LError).
Proof.
  intros path j.
  assert (A : forall p, verify_message_pact p j = [] <-> exists o, j = JObj o).
  { intro p. destruct j; cbn; split; try discriminate; try (intros [o E]; discriminate); [now eexists|reflexivity]. }
  assert (B : forall p f, In f (verify_message_pact p j) -> fi_path f = p /\ fi_level f = LError).
  { intros p f Hf. destruct j; cbn in Hf; try (destruct Hf as [<-|[]]; now split). destruct Hf. }
  repeat (apply conj); try apply A; intros f Hf; apply B, Hf.
Qed.
End Places.
