(** C110: XML bodies described by JSON. *)
From Coq Require Import Ascii String List Arith NArith ZArith Lia Bool.
From Verif Require Import Base PathExp Json Text MatchingRules Expr Generators RuleExpr Integration SpecIntegration PropIntegration CompareProofs XmlJson SpecXmlJson.
Import ListNotations.
Open Scope N_scope.

(** ** The effect on rules and generators *)
Definition effect (gs : list given) (st st' : store) : Prop :=
  rules_after gs (st_rules st) (st_rules st') /\ gens_after gs (generator_at GcBody (st_gens st)) (generator_at GcBody (st_gens st')) /\
  forall c p, c <> GcBody -> generator_at c (st_gens st') p = generator_at c (st_gens st) p.
Lemma effect_nil : forall st, effect [] st st.
Proof.
  intro st. split; [|split; [intro p; reflexivity | auto]]. split; [reflexivity|]. intro p. cbn. destruct (hm_get p (cat_rules (st_rules st))) as [rl|]; [|reflexivity].
  rewrite app_nil_r. destruct rl; reflexivity.
Qed.
Lemma effect_app : forall a b s1 s2 s3, effect a s1 s2 -> effect b s2 s3 -> effect (a ++ b) s1 s3.
Proof.
  intros a b s1 s2 s3 ((N1 & R1) & G1 & O1) ((N2 & R2) & G2 & O2). split; [|split].
  - split; [congruence|]. intro p. rewrite R2, R1. unfold rules_given. rewrite flat_map_app.
    destruct (hm_get p (cat_rules (st_rules s1))) as [rl|]; cbn [rl_rules rl_logic rl_cascaded].
    + rewrite app_assoc. reflexivity.
    + destruct (flat_map _ a) as [|x l]; cbn [app rl_rules rl_logic rl_cascaded]; reflexivity.
  - intro p. rewrite G2, G1. unfold gens_given. rewrite flat_map_app. rewrite last_of_app. reflexivity.
  - intros c p NC. rewrite (O2 c p NC). apply O1, NC.
Qed.
Definition put (p : docpath) (rules : list xrule) (gens : list generator) (st : store) : store :=
  mkStore (fold_left (fun c rule => x_add_rule c p rule And) rules (st_rules st)) (fold_left (fun g y => add_generator_at GcBody p y g) gens (st_gens st)).
Lemma put_put : forall p r g1 g2 st, put p [] g2 (put p r g1 st) = put p r (g1 ++ g2) st.
Proof. intros p r g1 g2 st. unfold put. cbn [st_rules st_gens fold_left]. rewrite fold_left_app. reflexivity. Qed.
Lemma effect_put : forall p r g st, effect [mkGiven p r g] st (put p r g st).
Proof.
  intros p r g st. split; [|split].
  - destruct (added_rules p [] r JNull st) as [[A1 A2] _]. cbn [st_rules] in A1, A2. split; [exact A1|]. intro q. cbn [put st_rules]. rewrite A2. unfold rules_for, rules_given. reflexivity.
  - intro q. cbn [put st_gens]. unfold gens_given. cbn [flat_map g_path g_gens]. rewrite app_nil_r. generalize (st_gens st) as gs. induction g as [|y g IH]; intro gs.
    + destruct (path_eqb q p); reflexivity.
    + cbn [fold_left]. rewrite IH, generator_at_add. replace (gcat_eqb GcBody GcBody) with true by reflexivity. cbn [andb]. destruct (path_eqb q p); reflexivity.
  - intros c q NC. cbn [put st_gens]. generalize (st_gens st) as gs. induction g as [|y g IH]; intro gs; [reflexivity|]. cbn [fold_left]. rewrite IH, generator_at_add.
    destruct (gcat_eqb c GcBody) eqn:E; [apply gcat_eqb_eq in E; contradiction | reflexivity].
Qed.

(** ** Copies *)
Lemma xtree_ind' : forall P : xtree -> Prop, (forall s, P (XText s)) -> (forall n a cs, Forall P cs -> P (XElem n a cs)) -> forall t, P t.
Proof.
  intros P HT HE. fix IH 1. intros [n a cs|s]; [|apply HT]. apply HE. induction cs as [|c cs IHc]; constructor; [apply IH | exact IHc].
Qed.
Lemma textless_iff : forall t t', (forall s, t <> XText s) -> (textless t t' <-> t' = without_texts t).
Proof.
  intro t. induction t as [s|n a cs IH] using xtree_ind'; intros t' NT; [exfalso; exact (NT s eq_refl)|]. cbn [without_texts].
  assert (A : forall cs', textless_all cs cs' <-> cs' = flat_map (fun c => match c with XElem _ _ _ => [without_texts c] | XText _ => [] end) cs).
  { clear NT t'. induction cs as [|c cs IHc]; intro cs'.
    - split; [intro H; inversion H; reflexivity | intros ->; constructor].
    - inversion IH as [|? ? Hc Hcs]; subst. specialize (IHc Hcs). cbn [flat_map]. destruct c as [m b ds|s].
      + split.
        * intro H. inversion H as [|? ? ? H1|? c' ? cs'' H1 H2]; subst. apply IHc in H2 as ->. apply Hc in H1 as ->; [reflexivity | discriminate].
        * intros ->. cbn [app]. apply tl_child; [apply Hc; [discriminate | reflexivity] | apply IHc; reflexivity].
      + split.
        * intro H. inversion H as [|? ? ? H1|? c' ? cs'' H1 H2]; subst; [apply IHc, H1 | inversion H1].
        * intros ->. cbn [app]. apply tl_text, IHc. reflexivity. }
  split; [intro H; inversion H as [? ? ? cs' H1]; subst; apply A in H1 as ->; reflexivity | intros ->; constructor; apply A; reflexivity].
Qed.
Lemma without_twice : forall t, without_texts (without_texts t) = without_texts t.
Proof.
  induction t as [s|n a cs IH] using xtree_ind'; [reflexivity|]. cbn [without_texts]. f_equal. induction IH as [|c cs Hc _ IHc]; [reflexivity|]. cbn [flat_map].
  destruct c as [m b ds|s]; [|exact IHc]. cbn [app flat_map].
  replace (match without_texts (XElem m b ds) with XElem _ _ _ => [without_texts (without_texts (XElem m b ds))] | XText _ => [] end) with [without_texts (without_texts (XElem m b ds))] by reflexivity.
  rewrite Hc, IHc. reflexivity.
Qed.
Lemma copies_same : forall n t, without_texts t = t -> copies n t = repeat t n.
Proof. induction n as [|n IH]; intros t H; [reflexivity|]. cbn [copies duplicate repeat]. rewrite H, IH by exact H. reflexivity. Qed.
Lemma repeated_iff : forall n t l, (forall s, t <> XText s) -> (repeated n t l <-> l = copies (N.to_nat n) t).
Proof.
  intros n t l NT. assert (E : forall k, copies (S k) t = t :: repeat (without_texts t) k).
  { intro k. cbn [copies duplicate]. rewrite copies_same by apply without_twice. reflexivity. }
  split.
  - intro H. destruct H as [t|n t t' l TL L F]; [reflexivity|]. replace (N.to_nat (n + 1)) with (S (N.to_nat n)) by lia. rewrite E. f_equal.
    apply textless_iff in TL as ->; [|exact NT]. rewrite <- L. clear L. induction F as [|y l <- F IH]; [reflexivity|]. cbn [length repeat]. f_equal. apply IH.
  - intros ->. destruct (N.eq_dec n 0) as [->|NE]; [constructor|]. replace n with ((n - 1) + 1) by lia. replace (N.to_nat (n - 1 + 1)) with (S (N.to_nat (n - 1))) by lia. rewrite E.
    apply rp_some with (t' := without_texts t); [apply textless_iff; [exact NT | reflexivity] | apply repeat_length | apply Forall_forall; intros y J; apply repeat_spec in J; congruence].
Qed.

Lemma bind_ok : forall {A B E} (o : outcome A E) (f : A -> outcome B E) b, bind o f = Ok b -> exists a, o = Ok a /\ f a = Ok b.
Proof. intros A B E [a|e|] f b H; cbn in H; try discriminate. exists a. auto. Qed.

Section XmlJson.
Variable w : world.
Variable junk : str -> nat.
Lemma place_iff : forall s p, doc_path w s = Ok p <-> place w s p.
Proof.
  intros s p. unfold doc_path. destruct (path_new (uni_alpha w) (uni_numeric w) s) as [q|e|] eqn:E.
  - split; [intro H; injection H as <-; apply pl_read, E | intro H; inversion H as [? ? H1|? ? H1]; subst; congruence].
  - split; [intro H; injection H as <-; eapply pl_root, E | intro H; inversion H as [? ? H1|? ? H1]; subst; [congruence | reflexivity]].
  - split; [discriminate | intro H; inversion H as [? ? H1|? ? H1]; subst; congruence].
Qed.
Lemma has_matcher_iff : forall m, has_matcher m = true <-> In (S_ "pact:matcher:type") (keys m).
Proof.
  intro m. unfold has_matcher. change matcher_type with (S_ "pact:matcher:type"). destruct (obj_get (S_ "pact:matcher:type") m) as [v|] eqn:E.
  - split; [intros _ | reflexivity]. apply obj_get_in in E. apply in_map_iff. exists (S_ "pact:matcher:type", v). auto.
  - split; [discriminate|]. intro J. exfalso. apply in_keys_get in J as [v J]. congruence.
Qed.
Lemma has_matcher_none : forall m, has_matcher m = false <-> ~ In (S_ "pact:matcher:type") (keys m).
Proof. intro m. rewrite <- has_matcher_iff. destruct (has_matcher m); split; congruence. Qed.
Lemma add_matcher_sound : forall p m st st1, add_matcher w junk p m st = Ok st1 -> exists rules gens, matcher_gives w junk m rules gens /\ st1 = put p rules gens st.
Proof.
  intros p m st st1 H. unfold add_matcher in H. destruct (matchers_from_integration_json w junk m) as [[rules g]|e|] eqn:M; [| |discriminate].
  - injection H as <-. destruct (has_matcher m) eqn:HM.
    + apply has_matcher_iff in HM. apply (C75_what_a_matcher_says w junk m rules g HM) in M. exists rules, (optional g). split; [apply mg_says; assumption|].
      destruct g as [g|]; reflexivity.
    + unfold has_matcher in HM. unfold matchers_from_integration_json in M. destruct (obj_get matcher_type m) eqn:E; [discriminate|]. injection M as <- <-.
      exists [], []. split; [apply mg_none, has_matcher_none; unfold has_matcher; rewrite E; reflexivity|]. destruct st; reflexivity.
  - injection H as <-. exists [], []. split; [|destruct st; reflexivity]. destruct (has_matcher m) eqn:HM; [|apply mg_none, has_matcher_none, HM].
    apply has_matcher_iff in HM. apply mg_wrong; [exact HM|]. intros rules g Sy. apply (C75_what_a_matcher_says w junk m rules g HM) in Sy. congruence.
Qed.
Lemma add_matcher_complete : forall p m st rules gens, matcher_gives w junk m rules gens -> ~ rule_panics w (JObj m) -> add_matcher w junk p m st = Ok (put p rules gens st).
Proof.
  intros p m st rules gens H NP. unfold add_matcher. destruct H as [rules g HM Sy|HM NS|HM].
  - apply (C75_what_a_matcher_says w junk m rules g HM) in Sy. rewrite Sy. destruct g as [g|]; reflexivity.
  - destruct (matchers_from_integration_json w junk m) as [[rules g]|e|] eqn:M.
    + exfalso. apply (C75_what_a_matcher_says w junk m rules g HM) in M. exact (NS _ _ M).
    + destruct st; reflexivity.
    + exfalso. apply NP. exact (matchers_panic w junk m M).
  - apply has_matcher_none in HM. unfold has_matcher in HM. unfold matchers_from_integration_json. destruct (obj_get matcher_type m); [discriminate|]. destruct st; reflexivity.
Qed.
Lemma own_put : forall p h m st, add_own_generator w p h m st = put p [] (generator_named w h m) st.
Proof.
  intros p h m st. unfold add_own_generator, generator_named. change generator_type with (S_ "pact:generator:type"). destruct (obj_get (S_ "pact:generator:type") h) as [t|]; [|destruct st; reflexivity].
  destruct (gen_from_map w (json_to_string w t) m); destruct st; reflexivity.
Qed.
Definition dollar (path : list str) : list str := S_ "$" :: path.
Lemma dotted_names : forall path, dotted (dollar path) = names path.
Proof. reflexivity. Qed.

(** ** What is made is what is described *)
Lemma attributes_sound : forall path m st l st', add_attributes w junk (dollar path) m st = Ok (l, st') ->
  exists gs, attributes_described w junk path m l gs /\ effect gs st st'.
Proof.
  intros path. induction m as [|[k v] m IH]; intros st l st' H; cbn [add_attributes] in H.
  - injection H as <- <-. exists []. split; [constructor | apply effect_nil].
  - apply bind_ok in H as ([t st1] & H1 & H). apply bind_ok in H as ([l1 st2] & H2 & H). cbn [fst snd] in *. injection H as <- <-. apply IH in H2 as (gs & A & E).
    assert (PL : forall v0, (forall o, v0 = JObj o -> ~ In (S_ "pact:matcher:type") (keys o)) -> v = v0 -> Ok (json_to_string w v0, st) = @Ok _ unit (t, st1) ->
       exists gs, attributes_described w junk path ((k, v) :: m) ((k, t) :: l1) gs /\ effect gs st st2).
    { intros v0 N0 -> X. injection X as <- <-. exists gs. split; [apply ad_plain; assumption | exact E]. }
    destruct v as [|b|n|s|vs|o]; try (eapply PL; [|reflexivity | exact H1]; discriminate).
    destruct (has_matcher o) eqn:HM.
    + apply bind_ok in H1 as (p & P & H1). apply bind_ok in H1 as (st0 & M & H1). apply place_iff in P. apply add_matcher_sound in M as (rules & gens & MG & ->).
      destruct (obj_get (S_ "value") o) as [value|] eqn:V; [|discriminate]. injection H1 as <- <-. rewrite own_put, put_put in E.
      exists (mkGiven p rules (gens ++ generator_named w o o) :: gs). split.
      * apply ad_matcher; [apply has_matcher_iff, HM | exact V | exact P | exact MG | exact A].
      * exact (effect_app [_] gs _ _ _ (effect_put _ _ _ _) E).
    + eapply PL; [|reflexivity | exact H1]. intros o' Z. injection Z as <-. apply has_matcher_none, HM.
Qed.
Definition child_sound (cc : list str -> list (str * json) -> store -> outcome (list xtree * store) unit) : Prop :=
  forall path o st ts st', cc (dollar path) o st = Ok (ts, st') -> exists t g n, described w junk path o t g /\ effect g st st' /\ examples o n /\
    match t with XText s => ts = [XText s] | XElem _ _ _ => repeated n t ts end.
Lemma element_sound : forall cc, child_sound cc -> forall path name o st t st', make_element w junk cc (dollar path) name o st = Ok (t, st') ->
  exists gs, element w junk (path ++ [name]) name o t gs /\ effect gs st st' /\ forall s, t <> XText s.
Proof.
  intros cc HC path name o st t st' H. unfold make_element in H. change (dollar path ++ [name]) with (dollar (path ++ [name])) in H. set (q := path ++ [name]) in *.
  apply bind_ok in H as ([ats st1] & HA & H). apply bind_ok in H as ([cs st2] & HK & H). cbn [fst snd] in *. injection H as <- <-.
  assert (A : exists ga, attributes_of_object w junk q o ats ga /\ effect ga st st1).
  { unfold attributes_of in HA. unfold attributes_of_object. destruct (obj_get (S_ "attributes") o) as [[| | | | |m]|];
      try (injection HA as <- <-; exists []; split; [split; reflexivity | apply effect_nil]). apply attributes_sound, HA. }
  destruct A as (ga & A & EA).
  assert (K : forall l st1 cs st2, add_children cc (dollar q) l st1 = Ok (cs, st2) -> exists gc, children_described w junk q l cs gc /\ effect gc st1 st2).
  { induction l as [|x l IH]; intros s1 ks s2 X; cbn [add_children] in X; [injection X as <- <-; exists []; split; [constructor | apply effect_nil]|].
    destruct x as [| | | | |m]; try discriminate. apply bind_ok in X as ([ts s3] & X1 & X). apply bind_ok in X as ([ks' s4] & X2 & X). cbn [fst snd] in *. injection X as <- <-.
    apply HC in X1 as (t & g & n & D & E & Ex & R). apply IH in X2 as (gc & C & E2). exists (g ++ gc). split; [|exact (effect_app _ _ _ _ _ E E2)]. destruct t as [tn ta tc|s].
    - apply cd_element with (t := XElem tn ta tc) (n := n); try assumption. discriminate.
    - subst ts. apply cd_text; [exact D | exists n; exact Ex | exact C]. }
  destruct (obj_get (S_ "children") o) as [[| | | |l|]|] eqn:CH; try discriminate.
  - apply K in HK as (gc & C & EC). exists (ga ++ gc). split; [eapply el_made; [exact A | left; exact CH | exact C]|]. split; [exact (effect_app _ _ _ _ _ EA EC) | discriminate].
  - injection HK as <- <-. exists (ga ++ []). split; [eapply el_made; [exact A | right; split; [exact CH | reflexivity] | constructor]|]. rewrite app_nil_r. split; [exact EA | discriminate].
Qed.
Lemma node_sound : forall cc, child_sound cc -> forall path o st t st', make_node w junk cc (dollar path) o st = Ok (t, st') ->
  exists gs, described w junk path o t gs /\ effect gs st st'.
Proof.
  intros cc HC path o st t st' H. unfold make_node in H. destruct (has_matcher o) eqn:HM.
  - apply has_matcher_iff in HM. destruct (obj_get (S_ "value") o) as [[| | | | |value]|] eqn:V; try discriminate. destruct (obj_get (S_ "name") value) as [n|] eqn:Nm; [|discriminate]. cbv zeta in H.
    apply bind_ok in H as (p & P & H). apply bind_ok in H as (st0 & M & H). apply place_iff in P. apply add_matcher_sound in M as (rules & gens & MG & ->). rewrite own_put, put_put in H.
    apply (element_sound cc HC) in H as (gs & EL & E & _). exists (mkGiven p rules (gens ++ generator_named w o o) :: gs). split.
    + eapply de_matcher; [exact HM | exact V | exact Nm | exact P | exact MG | exact EL].
    + exact (effect_app [_] gs _ _ _ (effect_put _ _ _ _) E).
  - apply has_matcher_none in HM. destruct (obj_get (S_ "content") o) as [content|] eqn:C.
    + cbv zeta in H. destruct (obj_get (S_ "matcher") o) as [v|] eqn:MT.
      * apply bind_ok in H as (p & P & H). apply place_iff in P.
        assert (ODD : (forall m, v <> JObj m) -> Ok (XText (json_to_string w content), st) = @Ok _ unit (t, st') -> exists gs, described w junk path o t gs /\ effect gs st st').
        { intros NO X. injection X as <- <-. exists []. split; [eapply de_text_odd; eassumption | apply effect_nil]. }
        destruct v as [| | | | |m]; try (apply ODD; [discriminate | exact H]). apply bind_ok in H as (st0 & M & H). injection H as <- <-.
        apply add_matcher_sound in M as (rules & gens & MG & ->). rewrite own_put, put_put. eexists. split; [eapply de_text_matcher; eassumption | apply effect_put].
      * injection H as <- <-. exists []. split; [eapply de_text; eassumption | apply effect_nil].
    + destruct (obj_get (S_ "name") o) as [n|] eqn:Nm; [|discriminate]. apply (element_sound cc HC) in H as (gs & EL & E & _). exists gs. split; [eapply de_element; eassumption | exact E].
Qed.
Lemma create_sound : forall f, child_sound (create_child w junk f).
Proof.
  induction f as [|f IH]; intros path o st ts st' H; [discriminate|]. cbn [create_child] in H. apply bind_ok in H as ([t st1] & H1 & H). apply (node_sound _ IH) in H1 as (g & D & E).
  unfold append in H. apply bind_ok in H as (n & Hn & H). cbn [fst snd] in H. injection H as <- <-. exists t, g, n. split; [exact D|]. split; [exact E|]. split.
  - unfold examples_of in Hn. destruct (obj_get (S_ "examples") o) as [[| |[k|z|fl]| | |]|] eqn:X; try discriminate; injection Hn as <-;
      try (apply ex_number; exact X); apply ex_once; intros y Z; rewrite X in Z; discriminate.
  - destruct t as [tn ta tc|s]; [|reflexivity]. apply repeated_iff; [discriminate | reflexivity].
Qed.
(** The document made from a description, and the rules and generators added, are those it describes. *)
Theorem C110_what_is_made : forall m st root st', generate_xml_body w junk m st = Ok (root, st') ->
  exists gs, body_described w junk m root gs /\ rules_after gs (st_rules st) (st_rules st') /\
    gens_after gs (generator_at GcBody (st_gens st)) (generator_at GcBody (st_gens st')) /\
    (forall c p, c <> GcBody -> generator_at c (st_gens st') p = generator_at c (st_gens st) p).
Proof.
  intros m st root st' H. unfold generate_xml_body in H. destruct (obj_get (S_ "root") m) as [v|] eqn:R.
  - assert (NOT : (forall o, v <> JObj o) -> Ok (None, st) = @Ok _ unit (root, st') -> exists gs, body_described w junk m root gs /\ effect gs st st').
    { intros NO X. injection X as <- <-. exists []. split; [apply bd_none; intros o Z; rewrite R in Z; injection Z as Z; exact (NO o Z) | apply effect_nil]. }
    destruct v as [| | | | |o]; try (apply NOT; [discriminate | exact H]).
    apply bind_ok in H as ([t st1] & H1 & H). cbn [fst snd] in H. injection H as <- <-. apply (node_sound _ (create_sound _) []) in H1 as (gs & D & E). exists gs. split; [|exact E].
    destruct t as [tn ta tc|s]; [eapply bd_root; [exact R | exact D | discriminate] | eapply bd_text; [exact R | exact D]].
  - injection H as <- <-. exists []. split; [apply bd_none; intros o Z; congruence | apply effect_nil].
Qed.
End XmlJson.
