(** C122: the verification of the format of a pact file. *)
From Coq Require Import Ascii String List Arith NArith ZArith Lia Bool.
From Verif Require Import Base PathExp Json Text MatchingRules Matchers Headers ContentType Http Merge PactFile OldFile FileCheck SpecFileCheck.
Import ListNotations.
Open Scope N_scope.

(** ** Lists of findings *)
Definition harmless (l : list finding) : Prop := forall f, In f l -> fi_level f <> LError.
Lemma harmless_nil : harmless [].
Proof. intros f []. Qed.
Lemma harmless_app : forall a b, harmless (a ++ b) <-> harmless a /\ harmless b.
Proof.
  intros a b. unfold harmless. split.
  - intro H. split; intros f Hf; apply H, in_or_app; [now left|now right].
  - intros [H G] f Hf. apply in_app_or in Hf as [Hf|Hf]; [apply H|apply G]; exact Hf.
Qed.
Lemma harmless_one : forall p l m, harmless [mkFinding p l m] <-> l <> LError.
Proof. intros p l m. split; [intro H; apply (H (mkFinding p l m)); now left|intros H f [<-|[]]; exact H]. Qed.
Lemma by_strict_error : forall strict, by_strict strict <> LError <-> strict <> true.
Proof. intros [|]; cbn; split; intros H E; try discriminate; now apply H. Qed.
Lemma nothing_app : forall (a b : list finding), a ++ b = [] <-> a = [] /\ b = [].
Proof. intros a b. split; [apply app_eq_nil|intros [-> ->]; reflexivity]. Qed.

Lemma known_iff : forall names k, known names k = true <-> In k names.
Proof.
  intros names k. unfold known. rewrite existsb_exists. split.
  - intros [n [Hn E]]. destruct (str_eqb_spec k n) as [->|]; [exact Hn|discriminate].
  - intro H. exists k. split; [exact H|]. destruct (str_eqb_spec k k); [reflexivity|congruence].
Qed.
Lemma unknown_in : forall A names f (o : list (str * A)) x, In x (unknown names f o) <-> exists k v, In (k, v) o /\ ~ In k names /\ x = f k.
Proof.
  intros A names f o x. unfold unknown. rewrite in_flat_map. split.
  - intros [[k v] [Hk Hx]]. cbn [fst] in Hx. destruct (known names k) eqn:E; [destruct Hx|].
    destruct Hx as [<-|[]]. exists k, v. split; [exact Hk|]. split; [|reflexivity].
    intro H. apply known_iff in H. congruence.
  - intros [k [v [Hk [Hn ->]]]]. exists (k, v). split; [exact Hk|]. cbn [fst].
    destruct (known names k) eqn:E; [apply known_iff in E; contradiction|now left].
Qed.
Lemma unknown_nothing : forall names f o, unknown (map S_ names) f o = [] <-> only_names names o.
Proof.
  intros names f o. unfold only_names. split.
  - intros H k v Hk. destruct (known (map S_ names) k) eqn:E; [apply known_iff; exact E|].
    exfalso. assert (G : In (f k) (unknown (map S_ names) f o)).
    { apply unknown_in. exists k, v. split; [exact Hk|]. split; [|reflexivity]. intro G. apply known_iff in G. congruence. }
    rewrite H in G. destruct G.
  - intro H. destruct (unknown (map S_ names) f o) as [|x l] eqn:E; [reflexivity|]. exfalso.
    assert (G : In x (unknown (map S_ names) f o)) by (rewrite E; now left).
    apply unknown_in in G as [k [v [Hk [Hn _]]]]. apply Hn. exact (H k v Hk).
Qed.
Lemma unknown_harmless : forall names f o strict, (forall k, fi_level (f k) = by_strict strict) ->
  (harmless (unknown (map S_ names) f o) <-> (strict = true -> only_names names o)).
Proof.
  intros names f o strict L. split.
  - intros H E k v Hk. destruct (known (map S_ names) k) eqn:G; [apply known_iff; exact G|].
    exfalso. apply (H (f k)).
    + apply unknown_in. exists k, v. split; [exact Hk|]. split; [|reflexivity]. intro J. apply known_iff in J. congruence.
    + rewrite L, E. reflexivity.
  - intros H x Hx. apply unknown_in in Hx as [k [v [Hk [Hn ->]]]]. rewrite L. destruct strict; cbn; [|discriminate].
    exfalso. apply Hn. exact (H eq_refl k v Hk).
Qed.
Lemma each_of_in : forall A (f : nat -> A -> list finding) l n x, In x (each_of f n l) <-> exists i a, nth_error l i = Some a /\ In x (f (n + i)%nat a).
Proof.
  intros A f l. induction l as [|b l IH]; intros n x; cbn [each_of].
  - split; [intros []|]. intros [[|i] [a [H _]]]; discriminate.
  - rewrite in_app_iff, IH. split.
    + intros [H|[i [a [Hi Hx]]]].
      * exists O, b. rewrite Nat.add_0_r. now split.
      * exists (S i), a. rewrite Nat.add_succ_r. now split.
    + intros [[|i] [a [Hi Hx]]].
      * cbn in Hi. injection Hi as <-. rewrite Nat.add_0_r in Hx. now left.
      * right. exists i, a. rewrite Nat.add_succ_r in Hx. now split.
Qed.
Lemma each_nothing : forall A (f : nat -> A -> list finding) (P : A -> Prop) l n,
  (forall i a, f i a = [] <-> P a) -> (each_of f n l = [] <-> forall a, In a l -> P a).
Proof.
  intros A f P l n H. revert n. induction l as [|b l IH]; intro n; cbn [each_of].
  - split; [intros _ a []|reflexivity].
  - rewrite nothing_app, H, IH. split.
    + intros [Hb Hl] a [<-|Ha]; [exact Hb|apply Hl, Ha].
    + intro G. split; [apply G; now left|intros a Ha; apply G; now right].
Qed.
Lemma each_harmless : forall A (f : nat -> A -> list finding) (P : A -> Prop) l n,
  (forall i a, harmless (f i a) <-> P a) -> (harmless (each_of f n l) <-> forall a, In a l -> P a).
Proof.
  intros A f P l n H. revert n. induction l as [|b l IH]; intro n; cbn [each_of].
  - split; [intros _ a []|intros _; apply harmless_nil].
  - rewrite harmless_app, H, IH. split.
    + intros [Hb Hl] a [<-|Ha]; [exact Hb|apply Hl, Ha].
    + intro G. split; [apply G; now left|intros a Ha; apply G; now right].
Qed.

(** ** What [obj_get] says *)
Lemma there_iff : forall k o P, there k o P <-> match obj_get (S_ k) o with Some j => P j | None => False end.
Proof.
  intros k o P. unfold there, at_name. destruct (obj_get (S_ k) o) as [j|].
  - split; [intros [j' [E H]]; apply (f_equal (fun o => match o with Some a => a | None => j' end)) in E; cbn in E; subst; exact H|].
    intro H. now exists j.
  - split; [intros [j' [E _]]; discriminate|intros []].
Qed.
Lemma if_there_iff : forall k o P, if_there k o P <-> match obj_get (S_ k) o with Some j => P j | None => True end.
Proof.
  intros k o P. unfold if_there, at_name. destruct (obj_get (S_ k) o) as [j|].
  - split; [intro H; now apply H|intros H j' E; injection E as <-; exact H].
  - split; [trivial|intros _ j' E; discriminate].
Qed.
Lemma object_iff : forall P j, object_with P j <-> match j with JObj o => P o | _ => False end.
Proof.
  intros P j. unfold object_with. split.
  - intros [o [-> H]]. exact H.
  - destruct j; try contradiction. intro H. now exists m.
Qed.
Lemma array_iff : forall P j, array_of P j <-> match j with JArr l => forall a, In a l -> P a | _ => False end.
Proof.
  intros P j. unfold array_of. split.
  - intros [o [-> H]]. exact H.
  - destruct j; try contradiction. intro H. now exists l.
Qed.
Lemma text_iff : forall j, a_text j <-> is_string j = true.
Proof. intro j. unfold a_text. split; [intros [s ->]; reflexivity|destruct j; try discriminate; intros _; now eexists]. Qed.
Lemma obj_iff : forall j, an_object j <-> is_object j = true.
Proof. intro j. unfold an_object. split; [intros [s ->]; reflexivity|destruct j; try discriminate; intros _; now eexists]. Qed.

Lemma one_not_nil : forall (A : Type) (a : A), [a] = [] <-> False.
Proof. intros A a. split; [discriminate|intros []]. Qed.
Ltac logic := first [tauto | intuition (first [reflexivity | discriminate | apply harmless_nil])].

(** ** Nothing to say *)
Lemma neat_participant_iff : forall path j strict, verify_participant path j strict = [] <-> neat_participant j.
Proof.
  intros path j strict. unfold neat_participant. rewrite object_iff.
  destruct j as [| | | | |o]; cbn [verify_participant]; try apply one_not_nil.
  rewrite nothing_app, there_iff. change [S_ "name"] with (map S_ ["name"%string]). rewrite unknown_nothing.
  destruct (obj_get (S_ "name") o) as [n|]; [|rewrite one_not_nil; logic].
  rewrite (text_iff n). destruct (is_string n); [logic|]. rewrite one_not_nil. split; [logic|intros [H _]; discriminate].
Qed.
Lemma neat_state_iff : forall path j strict, verify_state path j strict = [] <-> neat_state j.
Proof.
  intros path j strict. unfold neat_state. rewrite object_iff.
  destruct j as [| | |s| |o]; cbn [verify_state]; rewrite ?one_not_nil.
  all: try (split; [intros []|intros [[s0 H]|[]]; discriminate]).
  - split; [intros _; left; now exists s|reflexivity].
  - rewrite !nothing_app, there_iff, if_there_iff. change [S_ "name"; S_ "params"] with (map S_ ["name"; "params"]%string). rewrite unknown_nothing.
    assert (G : ~ a_text (JObj o)) by (intros [s0 H]; discriminate).
    destruct (obj_get (S_ "name") o) as [n|]; [|rewrite one_not_nil; logic].
    rewrite (text_iff n). destruct (is_string n).
    + destruct (obj_get (S_ "params") o) as [p|]; [|logic]. rewrite (obj_iff p). destruct (is_object p); [logic|].
      rewrite one_not_nil. split; [logic|intros [H|[_ [H _]]]; [contradiction|discriminate]].
    + rewrite one_not_nil. split; [logic|intros [H|[H _]]; [contradiction|discriminate]].
Qed.
Lemma has_absent : forall k (o : list (str * json)), obj_has (S_ k) o = false <-> absent k o.
Proof. intros k o. unfold obj_has, absent. destruct (obj_get (S_ k) o); split; congruence. Qed.
Lemma newer_iff : forall v, at_least_v3 v = true <-> newer_than_v2 v.
Proof. intro v. unfold newer_than_v2. destruct v; cbn; split; try discriminate; try logic; intros [H|H]; discriminate. Qed.
Lemma not_newer_iff : forall v, at_least_v3 v = false <-> ~ newer_than_v2 v.
Proof. intro v. rewrite <- newer_iff. destruct (at_least_v3 v); split; congruence. Qed.
Lemma names_of_interaction : interaction_names = map S_ ["_id"; "description"; "providerState"; "provider_state"; "providerStates"; "request"; "response"]%string.
Proof. reflexivity. Qed.
Lemma neat_interaction_iff : forall path j strict v, verify_interaction path j strict v = [] <-> neat_interaction v j.
Proof.
  intros path j strict v. unfold neat_interaction. rewrite object_iff.
  destruct j as [| | | | |o]; cbn [verify_interaction]; try apply one_not_nil.
  rewrite !nothing_app, there_iff, names_of_interaction, unknown_nothing.
  assert (D : (match obj_get (S_ "description") o with
               | Some d => if is_string d then [] else [mkFinding (path ++ S_ "/description") LError (S_ "Must be a String, got " ++ json_type_of (JObj o))]
               | None => [mkFinding path (by_strict strict) (S_ "Missing description")]
               end = []) <-> match obj_get (S_ "description") o with Some d => a_text d | None => False end).
  { destruct (obj_get (S_ "description") o) as [d|]; [|apply one_not_nil]. rewrite text_iff.
    destruct (is_string d); [logic|]. rewrite one_not_nil. split; [logic|discriminate]. }
  rewrite D. clear D. rewrite !if_there_iff. unfold states_of, absent.
  destruct (obj_get (S_ "providerStates") o) as [j|] eqn:S1.
  - cbn [fst snd]. rewrite array_iff.
    destruct j as [| | | |l|]; rewrite ?one_not_nil; try logic.
    rewrite (each_nothing _ _ neat_state) by (intros; apply neat_state_iff).
    assert (F : Some (JArr l) = None <-> False) by (split; [discriminate|logic]). rewrite F. logic.
  - destruct (obj_get (S_ "providerState") o) as [j|] eqn:S2.
    + cbn [fst snd].
      rewrite (each_nothing _ _ neat_state) by (intros; apply neat_state_iff).
      assert (F : Some j = None <-> False) by (split; [discriminate|logic]). rewrite F.
      assert (E : (if at_least_v3 v then [mkFinding path LWarning (S_ "'providerState' is deprecated, use 'providerStates' instead")] else []) = []
                  <-> ~ newer_than_v2 v).
      { rewrite <- not_newer_iff. destruct (at_least_v3 v); [rewrite one_not_nil; split; [logic|discriminate]|logic]. }
      rewrite E. split.
      * intros [H1 [H2 [H3 H4]]]. repeat split; try assumption; try logic. apply H3. now left.
      * intros [H1 [H2 [H3 H4]]]. destruct (H4 eq_refl) as [[H5 H6] _]. repeat split; try assumption. intros a [<-|[]]. exact H6.
    + destruct (obj_get (S_ "provider_state") o) as [j|] eqn:S3; cbn [fst snd].
      * rewrite one_not_nil. split; [logic|]. intros [_ [_ [_ H]]]. destruct (H eq_refl) as [_ G]. specialize (G eq_refl). discriminate.
      * cbn [each_of]. split; [intros [H1 [_ [_ H2]]]|intros [H1 [H2 _]]]; repeat split; assumption.
Qed.

(** ** No error *)
Lemma use_participant_iff : forall path j strict, harmless (verify_participant path j strict) <-> usable_participant strict j.
Proof.
  intros path j strict. unfold usable_participant. rewrite object_iff.
  destruct j as [| | | | |o]; cbn [verify_participant]; try (rewrite harmless_one; split; [intro H; now apply H|intros []]).
  rewrite harmless_app, if_there_iff. change [S_ "name"] with (map S_ ["name"%string]).
  rewrite (unknown_harmless _ _ _ strict) by reflexivity. unfold absent.
  destruct (obj_get (S_ "name") o) as [n|].
  - rewrite (text_iff n). destruct (is_string n).
    + pose proof harmless_nil. split; [intros [_ H1]|intros [_ H1]]; (split; [trivial|]); intro E; [split; [discriminate|now apply H1]|now apply H1].
    + rewrite harmless_one. split; [intros [H _]; now contradiction H|intros [H _]; discriminate].
  - rewrite harmless_one, by_strict_error. split.
    + intros [H1 H2]. split; [trivial|]. intro E. contradiction.
    + intros [_ H]. split; [intro E; destruct (H E) as [G _]; now apply G|]. intro E. now apply H.
Qed.
Lemma use_state_iff : forall path j strict, harmless (verify_state path j strict) <-> usable_state strict j.
Proof.
  intros path j strict. unfold usable_state. rewrite object_iff.
  destruct j as [| | |s| |o]; cbn [verify_state]; rewrite ?harmless_one.
  all: try (split; [intro H; now contradiction H|intros [[s0 H]|[]]; discriminate]).
  - split; [intros _; left; now exists s|intros _; apply harmless_nil].
  - rewrite !harmless_app, there_iff, if_there_iff. change [S_ "name"; S_ "params"] with (map S_ ["name"; "params"]%string).
    rewrite (unknown_harmless _ _ _ strict) by reflexivity.
    assert (G : ~ a_text (JObj o)) by (intros [s0 H]; discriminate). pose proof harmless_nil as Z.
    destruct (obj_get (S_ "name") o) as [n|]; [|rewrite harmless_one; logic].
    rewrite (text_iff n). destruct (is_string n).
    + destruct (obj_get (S_ "params") o) as [p|]; [|logic]. rewrite (obj_iff p). destruct (is_object p); [logic|].
      rewrite harmless_one. split; [intros [_ [H _]]; now contradiction H|intros [H|[_ [H _]]]; [contradiction|discriminate]].
    + rewrite harmless_one. split; [intros [H _]; now contradiction H|intros [H|[H _]]; [contradiction|discriminate]].
Qed.
Lemma use_interaction_iff : forall path j strict v, harmless (verify_interaction path j strict v) <-> usable_interaction strict j.
Proof.
  intros path j strict v. unfold usable_interaction. rewrite object_iff.
  destruct j as [| | | | |o]; cbn [verify_interaction]; try (rewrite harmless_one; split; [intro H; now apply H|intros []]).
  rewrite !harmless_app, names_of_interaction. rewrite (unknown_harmless _ _ _ strict) by reflexivity.
  rewrite !if_there_iff.
  assert (D : harmless (match obj_get (S_ "description") o with
               | Some d => if is_string d then [] else [mkFinding (path ++ S_ "/description") LError (S_ "Must be a String, got " ++ json_type_of (JObj o))]
               | None => [mkFinding path (by_strict strict) (S_ "Missing description")]
               end) <-> match obj_get (S_ "description") o with Some d => a_text d | None => True end /\ (strict = true -> ~ absent "description" o)).
  { unfold absent. destruct (obj_get (S_ "description") o) as [d|].
    - rewrite text_iff. destruct (is_string d).
      + split; [intros _; split; [reflexivity|discriminate]|intros _; apply harmless_nil].
      + rewrite harmless_one. split; [intro H; now contradiction H|intros [H _]; discriminate].
    - rewrite harmless_one, by_strict_error. split; [intro H; split; [trivial|intro E; contradiction]|intros [_ H] E; now apply (H E)]. }
  rewrite D. clear D. unfold states_of.
  assert (S0 : (harmless (snd (states_of path v o)) /\
               harmless (match fst (states_of path v o) with
                | JArr l => each_of (fun n s => verify_state (path ++ S_ "/providerStates/" ++ show_N (N.of_nat n)) s strict) 0 l
                | s => [mkFinding path LError (S_ "'providerStates' must be an Array, got " ++ json_type_of s)]
                end)) <->
               (match obj_get (S_ "providerStates") o with Some j => array_of (usable_state strict) j | None => True end /\
                (absent "providerStates" o ->
                   match obj_get (S_ "providerState") o with Some j => usable_state strict j | None => True end /\
                   (absent "providerState" o -> match obj_get (S_ "provider_state") o with Some j => usable_state strict j | None => True end)))).
  { unfold states_of, absent. destruct (obj_get (S_ "providerStates") o) as [j|].
    - cbn [fst snd]. rewrite array_iff. pose proof harmless_nil as Z.
      assert (F : Some j = None <-> False) by (split; [discriminate|logic]). rewrite F. clear F.
      destruct j as [| | | |l|]; rewrite ?harmless_one; try (split; [intros [_ H]; now contradiction H|logic]).
      rewrite (each_harmless _ _ (usable_state strict)) by (intros; apply use_state_iff). logic.
    - assert (E : forall j (l : list finding), harmless l -> 
          (harmless l /\ harmless (each_of (fun n s => verify_state (path ++ S_ "/providerStates/" ++ show_N (N.of_nat n)) s strict) 0 [j]) <-> usable_state strict j)).
      { intros j l Hl. rewrite (each_harmless _ _ (usable_state strict)) by (intros; apply use_state_iff).
        split; [intros [_ H]; apply H; now left|intro H; split; [exact Hl|intros a [<-|[]]; exact H]]. }
      destruct (obj_get (S_ "providerState") o) as [j|].
      + cbn [fst snd]. rewrite E.
        * assert (F : Some j = None <-> False) by (split; [discriminate|logic]). rewrite F. logic.
        * destruct (at_least_v3 v); [apply harmless_one; discriminate|apply harmless_nil].
      + destruct (obj_get (S_ "provider_state") o) as [j|]; cbn [fst snd].
        * rewrite E by (apply harmless_one; discriminate). logic.
        * cbn [each_of]. pose proof harmless_nil. logic. }
  unfold states_of in S0. fold (states_of path v o) in *. logic.
Qed.

Section Check.
Variable semver : str -> option (N * N).

Lemma version_iff : forall t, parsed_version semver t = true <-> a_version semver (JStr t).
Proof.
  intro t. unfold parsed_version, a_version. split.
  - destruct (semver t) as [[M m]|] eqn:E; [|discriminate]. intro H. exists t, (M, m).
    split; [reflexivity|]. split; [exact E|].
    destruct (N.eqb_spec M 1) as [->|].
    { apply orb_true_iff in H as [H|H]; apply N.eqb_eq in H; subst; cbn; logic. }
    destruct (N.eqb_spec M 2) as [->|]; [cbn [orb] in H; apply N.eqb_eq in H; subst; cbn; logic|].
    destruct (N.eqb_spec M 3) as [->|]; [cbn [orb] in H; apply N.eqb_eq in H; subst; cbn; logic|].
    destruct (N.eqb_spec M 4) as [->|]; [cbn [orb] in H; apply N.eqb_eq in H; subst; cbn; logic|].
    cbn in H. discriminate.
  - intros [t' [v [Ht [Hv Hin]]]]. injection Ht as <-. rewrite Hv.
    destruct Hin as [<-|[<-|[<-|[<-|[<-|[]]]]]]; reflexivity.
Qed.
Lemma neat_specification_iff : forall j, verify_specification semver j = [] <-> object_with (fun s => there "version" s (a_version semver)) j.
Proof.
  intro j. rewrite object_iff. destruct j as [| | | | |o]; cbn [verify_specification]; try apply one_not_nil.
  rewrite there_iff. destruct (obj_get (S_ "version") o) as [n|]; [|apply one_not_nil].
  destruct n as [|b|n|t|l|m]; rewrite ?one_not_nil; try (split; [intros []|intros [t0 [v [H _]]]; discriminate]).
  rewrite <- version_iff. destruct (parsed_version semver t); [logic|]. rewrite one_not_nil. split; [logic|discriminate].
Qed.
Lemma neat_metadata_iff : forall j, verify_metadata semver j = [] <-> neat_metadata semver j.
Proof.
  intro j. unfold neat_metadata. rewrite object_iff. destruct j as [| | | | |o]; cbn [verify_metadata]; try apply one_not_nil.
  rewrite if_there_iff, <- has_absent. unfold absent.
  destruct (obj_get (S_ "pactSpecification") o) as [s|].
  - rewrite !nothing_app, neat_specification_iff.
    destruct (obj_has (S_ "pactSpecificationVersion") o).
    + rewrite one_not_nil. split; [logic|intros [H _]; discriminate].
    + split; [intros [_ [_ H]]|intros [_ [H _]]]; repeat split; try exact H. discriminate.
  - destruct (obj_get (S_ "pact-specification") o) as [s|].
    + rewrite nothing_app, one_not_nil. split; [logic|intros [_ [_ H]]; now specialize (H eq_refl)].
    + rewrite !nothing_app. destruct (obj_has (S_ "pactSpecificationVersion") o).
      * rewrite one_not_nil. split; [logic|intros [H _]; discriminate].
      * split; repeat split.
Qed.
(** Nothing is said exactly about files that have nothing wrong; strict or not. *)
Theorem C122_neat : forall j strict v, verify_pact semver j strict v = [] <-> neat semver v j.
Proof.
  intros j strict v. unfold neat. rewrite object_iff.
  destruct j as [| | | | |o]; cbn [verify_pact]; try apply one_not_nil.
  rewrite !nothing_app, !there_iff, if_there_iff.
  change [S_ "consumer"; S_ "provider"; S_ "interactions"; S_ "metadata"] with (map S_ ["consumer"; "provider"; "interactions"; "metadata"]%string).
  rewrite unknown_nothing.
  assert (A : forall (k : string) p m,
    (match obj_get (S_ k) o with Some c => verify_participant p c strict | None => [mkFinding p (by_strict strict) m] end = [])
    <-> match obj_get (S_ k) o with Some c => neat_participant c | None => False end).
  { intros k p m. destruct (obj_get (S_ k) o); [apply neat_participant_iff|apply one_not_nil]. }
  rewrite !A. clear A.
  assert (I : (match obj_get (S_ "interactions") o with
               | Some (JArr []) => [mkFinding (S_ "/interactions") LWarning (S_ "Interactions is empty")]
               | Some (JArr ((_ :: _) as l)) => each_of (fun n i => verify_interaction (S_ "/interactions/" ++ show_N (N.of_nat n)) i strict v) 0 l
               | Some _ => [mkFinding (S_ "/interactions") LError (S_ "Must be an Object, got " ++ json_type_of (JObj o))]
               | None => [mkFinding (S_ "/interactions") LWarning (S_ "Missing interactions")]
               end = []) <-> match obj_get (S_ "interactions") o with Some l => array_of (neat_interaction v) l /\ l <> JArr [] | None => False end).
  { destruct (obj_get (S_ "interactions") o) as [l|]; [|apply one_not_nil]. rewrite array_iff.
    destruct l as [| | | |l|]; rewrite ?one_not_nil; try logic.
    destruct l as [|a l]; [rewrite one_not_nil; logic|].
    rewrite (each_nothing _ _ (neat_interaction v)) by (intros; apply neat_interaction_iff).
    split; [intro H; split; [exact H|discriminate]|logic]. }
  rewrite I. clear I.
  assert (M : (match obj_get (S_ "metadata") o with Some m => verify_metadata semver m | None => [] end = [])
              <-> match obj_get (S_ "metadata") o with Some m => neat_metadata semver m | None => True end).
  { destruct (obj_get (S_ "metadata") o); [apply neat_metadata_iff|logic]. }
  rewrite M. logic.
Qed.
Lemma use_specification_iff : forall j, harmless (verify_specification semver j) <-> usable_specification semver j.
Proof.
  intro j. unfold usable_specification. rewrite object_iff.
  destruct j as [| | | | |o]; cbn [verify_specification]; try (rewrite harmless_one; split; [intro H; now apply H|intros []]).
  rewrite if_there_iff. destruct (obj_get (S_ "version") o) as [n|]; [|rewrite harmless_one; split; [trivial|discriminate]].
  destruct n as [|b|n|t|l|m]; rewrite ?harmless_one;
    try (split; [intro H; now contradiction H|intros [H|[t0 [v [H _]]]]; discriminate]).
  - split; [now left|discriminate].
  - rewrite <- version_iff. destruct (parsed_version semver t).
    + split; [now right|intros _; apply harmless_nil].
    + rewrite harmless_one. split; [intro H; now contradiction H|intros [H|H]; discriminate].
Qed.
Lemma use_metadata_iff : forall j, harmless (verify_metadata semver j) <-> usable_metadata semver j.
Proof.
  intro j. unfold usable_metadata. rewrite object_iff.
  destruct j as [| | | | |o]; cbn [verify_metadata]; try (rewrite harmless_one; split; [intro H; now apply H|intros []]).
  rewrite !if_there_iff. unfold absent.
  assert (V : forall b : bool, harmless (if b then [mkFinding (S_ "/metadata") LWarning (S_ "'pactSpecificationVersion' is deprecated, use 'pactSpecification/version' instead")] else [])).
  { intros [|]; [apply harmless_one; discriminate|apply harmless_nil]. }
  destruct (obj_get (S_ "pactSpecification") o) as [s|].
  - rewrite !harmless_app, use_specification_iff.
    split; [intros [_ [_ H]]; split; [exact H|discriminate]|intros [H _]; split; [apply harmless_nil|]; split; [apply V|exact H]].
  - destruct (obj_get (S_ "pact-specification") o) as [s|]; rewrite !harmless_app.
    + rewrite use_specification_iff. split; [logic|intros [_ H]]. split; [apply harmless_one; discriminate|]. split; [apply V|logic].
    + split; [logic|intros _]. split; [apply harmless_nil|]. split; [apply V|apply harmless_nil].
Qed.
(** There is an error exactly if the file cannot be used, and a strict check takes more for an error. *)
Theorem C122_usable : forall j strict v,
  (forall f, In f (verify_pact semver j strict v) -> fi_level f <> LError) <-> usable semver strict j.
Proof.
  intros j strict v. change (harmless (verify_pact semver j strict v) <-> usable semver strict j). unfold usable. rewrite object_iff.
  destruct j as [| | | | |o]; cbn [verify_pact]; try (rewrite harmless_one; split; [intro H; now apply H|intros []]).
  rewrite !harmless_app, !if_there_iff.
  change [S_ "consumer"; S_ "provider"; S_ "interactions"; S_ "metadata"] with (map S_ ["consumer"; "provider"; "interactions"; "metadata"]%string).
  rewrite (unknown_harmless _ _ _ strict) by reflexivity.
  assert (A : forall (k : string) p m,
    harmless (match obj_get (S_ k) o with Some c => verify_participant p c strict | None => [mkFinding p (by_strict strict) m] end)
    <-> match obj_get (S_ k) o with Some c => usable_participant strict c | None => True end /\ (strict = true -> ~ absent k o)).
  { intros k p m. unfold absent. destruct (obj_get (S_ k) o).
    - rewrite use_participant_iff. split; [intro H; split; [exact H|discriminate]|logic].
    - rewrite harmless_one, by_strict_error. split; [intro H; split; [trivial|intro E; contradiction]|intros [_ H] E; now apply (H E)]. }
  rewrite !A. clear A.
  assert (I : harmless (match obj_get (S_ "interactions") o with
               | Some (JArr []) => [mkFinding (S_ "/interactions") LWarning (S_ "Interactions is empty")]
               | Some (JArr ((_ :: _) as l)) => each_of (fun n i => verify_interaction (S_ "/interactions/" ++ show_N (N.of_nat n)) i strict v) 0 l
               | Some _ => [mkFinding (S_ "/interactions") LError (S_ "Must be an Object, got " ++ json_type_of (JObj o))]
               | None => [mkFinding (S_ "/interactions") LWarning (S_ "Missing interactions")]
               end) <-> match obj_get (S_ "interactions") o with Some l => array_of (usable_interaction strict) l | None => True end).
  { destruct (obj_get (S_ "interactions") o) as [l|]; [|rewrite harmless_one; split; [trivial|discriminate]]. rewrite array_iff.
    destruct l as [| | | |l|]; rewrite ?harmless_one; try (split; [intro H; now contradiction H|logic]).
    destruct l as [|a l]; [rewrite harmless_one; split; [intros _ a []|discriminate]|].
    apply each_harmless. intros. apply use_interaction_iff. }
  rewrite I. clear I.
  assert (M : harmless (match obj_get (S_ "metadata") o with Some m => verify_metadata semver m | None => [] end)
              <-> match obj_get (S_ "metadata") o with Some m => usable_metadata semver m | None => True end).
  { destruct (obj_get (S_ "metadata") o); [apply use_metadata_iff|split; [trivial|intros _; apply harmless_nil]]. }
  rewrite M. logic.
Qed.
End Check.
