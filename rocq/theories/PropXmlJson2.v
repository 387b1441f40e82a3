(** C110, second part: every description is followed; nothing else is. *)
From Coq Require Import Ascii String List Arith NArith ZArith Lia Bool.
From Verif Require Import Base PathExp Json Text MatchingRules Expr Generators RuleExpr Integration SpecIntegration PropIntegration CompareProofs XmlJson SpecXmlJson PropXmlJson.
Import ListNotations.
Open Scope N_scope.

Scheme described_mut := Induction for described Sort Prop
  with element_mut := Induction for element Sort Prop
  with children_mut := Induction for children_described Sort Prop.
Combined Scheme described_all from described_mut, element_mut, children_mut.

Section XmlJson.
Variable w : world.
Variable junk : str -> nat.
Lemma get_safe : forall k v m, obj_get k m = Some v -> ~ rule_panics w (JObj m) -> ~ rule_panics w v.
Proof. intros k v m G NP P. apply NP. apply obj_get_in in G. exact (panics_field w k v m G P). Qed.
Lemma get_depth : forall k v m, obj_get k m = Some v -> (json_depth v < json_depth (JObj m))%nat.
Proof. intros k v m G. apply child_depth. exists k. apply obj_get_in in G. exact G. Qed.
Lemma attributes_complete : forall path m l gs, attributes_described w junk path m l gs -> (forall k v, In (k, v) m -> ~ rule_panics w v) ->
  forall st, exists st', add_attributes w junk (dollar path) m st = Ok (l, st') /\ effect gs st st'.
Proof.
  intros path m l gs H. induction H as [|k v m l gs NM H IH|k o value p rules gens m l gs HM V P MG H IH]; intros NP st.
  - exists st. split; [reflexivity | apply effect_nil].
  - destruct (IH (fun k v J => NP k v (or_intror J)) st) as (st' & R & E). exists st'. split; [|exact E]. cbn [add_attributes].
    replace (match v with JObj m0 => if has_matcher m0 then _ else Ok (json_to_string w v, st) | _ => _ end) with (@Ok (str * store) unit (json_to_string w v, st)).
    + cbn [bind fst snd]. rewrite R. reflexivity.
    + destruct v as [| | | | |o]; try reflexivity. replace (has_matcher o) with false; [reflexivity|]. symmetry. apply has_matcher_none. apply NM. reflexivity.
  - destruct (IH (fun k v J => NP k v (or_intror J)) (put p rules (gens ++ generator_named w o o) st)) as (st' & R & E). exists st'. split.
    + cbn [add_attributes]. apply has_matcher_iff in HM. rewrite HM. rewrite dotted_names. apply place_iff in P. rewrite P. cbn [bind].
      rewrite (add_matcher_complete w junk p o st rules gens MG (NP k (JObj o) (or_introl eq_refl))). cbn [bind]. rewrite V. cbn [bind fst snd]. rewrite own_put, put_put, R. reflexivity.
    + exact (effect_app [_] gs _ _ _ (effect_put _ _ _ _) E).
Qed.
Lemma examples_get : forall o n, examples o n -> examples_of o = Ok n.
Proof.
  intros o n [o' k X|o' X]; unfold examples_of; [rewrite X; reflexivity|]. destruct (obj_get (S_ "examples") o') as [[| |y| | |]|] eqn:G; try reflexivity. exfalso. exact (X y eq_refl).
Qed.
Definition node_made f path o t gs : Prop := forall st, exists st', make_node w junk (create_child w junk f) (dollar path) o st = Ok (t, st') /\ effect gs st st'.
Lemma create_step : forall f path o st, create_child w junk (S f) path o st = bind (make_node w junk (create_child w junk f) path o st) (append o).
Proof. reflexivity. Qed.
Lemma complete :
  (forall path o t gs, described w junk path o t gs -> ~ rule_panics w (JObj o) -> forall f, (json_depth (JObj o) <= S f)%nat -> node_made f path o t gs) /\
  (forall path name o t gs, element w junk path name o t gs -> ~ rule_panics w (JObj o) -> forall f, (json_depth (JObj o) <= S f)%nat ->
     forall path0, path = path0 ++ [name] -> forall st, exists st', make_element w junk (create_child w junk f) (dollar path0) name o st = Ok (t, st') /\ effect gs st st') /\
  (forall path l cs gs, children_described w junk path l cs gs -> (forall x, In x l -> ~ rule_panics w x) -> forall f, (forall x, In x l -> (json_depth x <= f)%nat) ->
     forall st, exists st', add_children (create_child w junk f) (dollar path) l st = Ok (cs, st') /\ effect gs st st').
Proof.
  apply described_all.
  - intros path o value n p rules gens t gs HM V Nm P MG EL IH NP f D st. unfold node_made, make_node. apply has_matcher_iff in HM. rewrite HM, V, Nm. cbv zeta.
    replace (dotted (dollar path ++ [json_to_string w n])) with (names (path ++ [json_to_string w n])) by reflexivity. apply place_iff in P. rewrite P. cbn [bind].
    rewrite (add_matcher_complete w junk p o st rules gens MG NP). cbn [bind]. rewrite own_put, put_put.
    pose proof (get_depth _ _ _ V) as DV. destruct (IH (get_safe _ _ _ V NP) f ltac:(lia) path eq_refl (put p rules (gens ++ generator_named w o o) st)) as (st' & R & E).
    exists st'. split; [exact R | exact (effect_app [_] gs _ _ _ (effect_put _ _ _ _) E)].
  - intros path o content HM C MT NP f D st. unfold make_node. apply has_matcher_none in HM. rewrite HM, C, MT. exists st. split; [reflexivity | apply effect_nil].
  - intros path o content v p HM C MT NO P NP f D st. unfold make_node. apply has_matcher_none in HM. rewrite HM, C, MT. cbv zeta.
    replace (dotted (dollar path ++ [S_ "#text"])) with (names (path ++ [S_ "#text"])) by reflexivity. apply place_iff in P. rewrite P. cbn [bind].
    exists st. split; [|apply effect_nil]. destruct v as [| | | | |m]; try reflexivity. exfalso. exact (NO m eq_refl).
  - intros path o content m p rules gens HM C MT P MG NP f D st. unfold make_node. apply has_matcher_none in HM. rewrite HM, C, MT. cbv zeta.
    replace (dotted (dollar path ++ [S_ "#text"])) with (names (path ++ [S_ "#text"])) by reflexivity. apply place_iff in P. rewrite P. cbn [bind].
    rewrite (add_matcher_complete w junk p m st rules gens MG (get_safe _ _ _ MT NP)). cbn [bind]. rewrite own_put, put_put. eexists. split; [reflexivity | apply effect_put].
  - intros path o n t gs HM C Nm EL IH NP f D st. unfold make_node. apply has_matcher_none in HM. rewrite HM, C, Nm. apply IH; [exact NP | exact D | reflexivity].
  - intros path name o ats ga l cs gc A CH CD IH NP f D path0 -> st. unfold make_element. change (dollar path0 ++ [name]) with (dollar (path0 ++ [name])). set (q := path0 ++ [name]) in *.
    assert (HA : exists st1, attributes_of w junk (dollar q) o st = Ok (ats, st1) /\ effect ga st st1).
    { unfold attributes_of. unfold attributes_of_object in A. destruct (obj_get (S_ "attributes") o) as [[| | | | |m]|] eqn:G; try (destruct A as [-> ->]; exists st; split; [reflexivity | apply effect_nil]).
      apply (attributes_complete q m ats ga A). intros k v J Z. apply (get_safe _ _ _ G NP). exact (panics_field w k v m J Z). }
    destruct HA as (st1 & -> & EA). cbn [bind fst snd].
    destruct CH as [CH|[CH ->]].
    + rewrite CH. pose proof (get_depth _ _ _ CH) as DC. destruct (IH) with (f := f) (st := st1) as (st2 & R & E).
      * intros x J Z. apply (get_safe _ _ _ CH NP). exact (panics_elem w x l J Z).
      * intros x J. pose proof (child_depth x (JArr l) J). lia.
      * exists st2. rewrite R. split; [reflexivity | exact (effect_app _ _ _ _ _ EA E)].
    + rewrite CH. inversion CD; subst. exists st1. rewrite app_nil_r. split; [reflexivity | exact EA].
  - intros path NP f D st. exists st. split; [reflexivity | apply effect_nil].
  - intros path o s g l cs gs DE IHD [n Ex] CD IH NP f D st. cbn [add_children]. destruct f as [|f]; [exfalso; pose proof (D _ (or_introl eq_refl)); pose proof (depth_pos (JObj o)); lia|].
    destruct (IHD (NP _ (or_introl eq_refl)) f (D _ (or_introl eq_refl)) st) as (st1 & R1 & E1).
    destruct (IH (fun x J => NP x (or_intror J)) (S f) (fun x J => D x (or_intror J)) st1) as (st2 & R2 & E2).
    exists st2. split; [|exact (effect_app _ _ _ _ _ E1 E2)]. rewrite create_step, R1. cbn [bind]. unfold append. rewrite (examples_get o n Ex). cbn [bind fst snd]. rewrite R2. reflexivity.
  - intros path o t n ts g l cs gs DE IHD NT Ex Rp CD IH NP f D st. cbn [add_children]. destruct f as [|f]; [exfalso; pose proof (D _ (or_introl eq_refl)); pose proof (depth_pos (JObj o)); lia|].
    destruct (IHD (NP _ (or_introl eq_refl)) f (D _ (or_introl eq_refl)) st) as (st1 & R1 & E1).
    destruct (IH (fun x J => NP x (or_intror J)) (S f) (fun x J => D x (or_intror J)) st1) as (st2 & R2 & E2).
    exists st2. split; [|exact (effect_app _ _ _ _ _ E1 E2)]. rewrite create_step, R1. cbn [bind]. unfold append. rewrite (examples_get o n Ex). cbn [bind fst snd]. rewrite R2.
    apply repeated_iff in Rp as ->; [|exact NT]. destruct t as [tn ta tc|s]; [reflexivity | exfalso; exact (NT s eq_refl)].
Qed.
(** Every description is followed. *)
Theorem C110_every_description : forall m root gs, body_described w junk m root gs -> ~ rule_panics w (JObj m) -> forall st,
  exists st', generate_xml_body w junk m st = Ok (root, st') /\ rules_after gs (st_rules st) (st_rules st') /\
    gens_after gs (generator_at GcBody (st_gens st)) (generator_at GcBody (st_gens st')) /\
    (forall c p, c <> GcBody -> generator_at c (st_gens st') p = generator_at c (st_gens st) p).
Proof.
  intros m root gs H NP st. unfold generate_xml_body. destruct H as [m o t gs R D NT|m o s gs R D|m NO].
  - rewrite R. destruct (proj1 complete _ _ _ _ D (get_safe _ _ _ R NP) (json_depth (JObj o)) ltac:(lia) st) as (st' & E & EF). exists st'.
    change [S_ "$"] with (dollar []). rewrite E. cbn [bind fst snd]. split; [|exact EF]. destruct t as [tn ta tc|s]; [reflexivity | exfalso; exact (NT s eq_refl)].
  - rewrite R. destruct (proj1 complete _ _ _ _ D (get_safe _ _ _ R NP) (json_depth (JObj o)) ltac:(lia) st) as (st' & E & EF). exists st'.
    change [S_ "$"] with (dollar []). rewrite E. cbn [bind fst snd]. split; [reflexivity | exact EF].
  - exists st. split; [|apply effect_nil]. destruct (obj_get (S_ "root") m) as [[| | | | |o]|] eqn:R; try reflexivity. exfalso. exact (NO o eq_refl).
Qed.

(** ** It never fails: it makes the body or it panics *)
Definition errs {A E} (o : outcome A E) : Prop := exists e, o = Err e.
Lemma bind_errs : forall {A B E} (o : outcome A E) (f : A -> outcome B E), errs (bind o f) -> errs o \/ exists a, o = Ok a /\ errs (f a).
Proof. intros A B E [a|e|] f [x H]; cbn in H; [right; exists a; split; [reflexivity | exists x; exact H] | left; exists e; reflexivity | discriminate]. Qed.
Lemma doc_path_ok : forall s, ~ errs (doc_path w s).
Proof. intros s [e H]. unfold doc_path in H. destruct (path_new (uni_alpha w) (uni_numeric w) s); discriminate. Qed.
Lemma add_matcher_ok : forall p m st, ~ errs (add_matcher w junk p m st).
Proof. intros p m st [e H]. unfold add_matcher in H. destruct (matchers_from_integration_json w junk m) as [[r g]|x|]; discriminate. Qed.
Lemma attributes_ok : forall path m st, ~ errs (add_attributes w junk path m st).
Proof.
  intros path m. induction m as [|[k v] m IH]; intros st H; [destruct H; discriminate|]. cbn [add_attributes] in H. apply bind_errs in H as [H|([t st1] & _ & H)].
  - destruct v as [| | | | |o]; try (destruct H; discriminate). destruct (has_matcher o); [|destruct H; discriminate]. apply bind_errs in H as [H|(p & _ & H)]; [exact (doc_path_ok _ H)|].
    apply bind_errs in H as [H|(st1 & _ & H)]; [exact (add_matcher_ok _ _ _ H)|]. destruct (obj_get (S_ "value") o); destruct H; discriminate.
  - apply bind_errs in H as [H|(r & _ & [e H])]; [exact (IH _ H) | discriminate].
Qed.
Lemma element_ok : forall f path name o st, (json_depth (JObj o) <= S f)%nat ->
  (forall path o st, (json_depth (JObj o) <= f)%nat -> ~ errs (create_child w junk f path o st)) -> ~ errs (make_element w junk (create_child w junk f) path name o st).
Proof.
  intros f path name o st D HC H. unfold make_element in H. apply bind_errs in H as [H|([ats st1] & _ & H)].
  - unfold attributes_of in H. destruct (obj_get (S_ "attributes") o) as [[| | | | |m]|]; try (destruct H; discriminate). exact (attributes_ok _ _ _ H).
  - apply bind_errs in H as [H|(rc & _ & [e H])]; [|discriminate]. cbn [snd] in H. destruct (obj_get (S_ "children") o) as [[| | | |l|]|] eqn:G; try (destruct H; discriminate).
    assert (DL : forall x, In x l -> (json_depth x <= f)%nat). { intros x J. pose proof (child_depth x (JArr l) J). pose proof (get_depth _ _ _ G). lia. }
    revert st1 H. clear G D. induction l as [|x l IH]; intros st1 H; [destruct H; discriminate|]. cbn [add_children] in H. destruct x as [| | | | |m]; try (destruct H; discriminate).
    apply bind_errs in H as [H|(r & _ & H)]; [exact (HC _ _ _ (DL _ (or_introl eq_refl)) H)|]. apply bind_errs in H as [H|(r' & _ & [e H])]; [|discriminate]. exact (IH (fun x J => DL x (or_intror J)) _ H).
Qed.
Lemma node_ok : forall f path o st, (json_depth (JObj o) <= S f)%nat ->
  (forall path o st, (json_depth (JObj o) <= f)%nat -> ~ errs (create_child w junk f path o st)) -> ~ errs (make_node w junk (create_child w junk f) path o st).
Proof.
  intros f path o st D HC H. unfold make_node in H. destruct (has_matcher o).
  - destruct (obj_get (S_ "value") o) as [[| | | | |value]|] eqn:G; try (destruct H; discriminate). destruct (obj_get (S_ "name") value) as [n|]; [|destruct H; discriminate]. cbv zeta in H.
    apply bind_errs in H as [H|(p & _ & H)]; [exact (doc_path_ok _ H)|]. apply bind_errs in H as [H|(st1 & _ & H)]; [exact (add_matcher_ok _ _ _ H)|].
    pose proof (get_depth _ _ _ G) as DG. revert H. apply element_ok; [lia | exact HC].
  - destruct (obj_get (S_ "content") o) as [c|].
    + cbv zeta in H. destruct (obj_get (S_ "matcher") o) as [v|]; [|destruct H; discriminate]. apply bind_errs in H as [H|(p & _ & H)]; [exact (doc_path_ok _ H)|].
      destruct v as [| | | | |m]; try (destruct H; discriminate). apply bind_errs in H as [H|(st1 & _ & [e H])]; [exact (add_matcher_ok _ _ _ H) | discriminate].
    + destruct (obj_get (S_ "name") o) as [n|]; [|destruct H; discriminate]. exact (element_ok f _ _ _ _ D HC H).
Qed.
Lemma create_ok : forall f path o st, (json_depth (JObj o) <= f)%nat -> ~ errs (create_child w junk f path o st).
Proof.
  induction f as [|f IH]; intros path o st D H; [pose proof (depth_pos (JObj o)); lia|]. cbn [create_child] in H. apply bind_errs in H as [H|(r & _ & H)]; [exact (node_ok f _ _ _ D IH H)|].
  unfold append in H. apply bind_errs in H as [H|(n & _ & [e H])]; [|discriminate]. unfold examples_of in H. destruct (obj_get (S_ "examples") o) as [[| |[]| | |]|]; destruct H; discriminate.
Qed.
(** A JSON document that describes no body is refused with a panic; nothing else is, but for rules that panic themselves. *)
Theorem C110_what_is_refused : forall m st,
  ((forall root gs, ~ body_described w junk m root gs) -> generate_xml_body w junk m st = Panic) /\
  (generate_xml_body w junk m st = Panic -> ~ rule_panics w (JObj m) -> forall root gs, ~ body_described w junk m root gs) /\
  (generate_xml_body w junk m st = Panic \/ exists root st', generate_xml_body w junk m st = Ok (root, st')).
Proof.
  intros m st. assert (NE : ~ errs (generate_xml_body w junk m st)).
  { intro H. unfold generate_xml_body in H. destruct (obj_get (S_ "root") m) as [[| | | | |o]|]; try (destruct H; discriminate).
    apply bind_errs in H as [H|(r & _ & [e H])]; [|discriminate]. revert H. apply node_ok; [lia | exact (create_ok _)]. }
  assert (T : generate_xml_body w junk m st = Panic \/ exists root st', generate_xml_body w junk m st = Ok (root, st')).
  { destruct (generate_xml_body w junk m st) as [[root st']|e|] eqn:G; [right; exists root, st'; reflexivity | exfalso; apply NE; exists e; reflexivity | left; reflexivity]. }
  split; [|split; [|exact T]].
  - intro ND. destruct T as [T|(root & st' & T)]; [exact T|]. exfalso. destruct (C110_what_is_made w junk m st root st' T) as (gs & B & _). exact (ND _ _ B).
  - intros P NP root gs B. destruct (C110_every_description m root gs B NP st) as (st' & R & _). congruence.
Qed.
End XmlJson.

(** ** Examples *)
Definition matcher (v : json) : list (str * json) := [(S_ "pact:matcher:type", JStr (S_ "type")); (S_ "value", v)].
Definition xml_document : list (str * json) :=
  [(S_ "root", JObj [(S_ "children", JArr [JObj ((S_ "examples", JNum (PosInt 2)) :: matcher (JObj
      [(S_ "attributes", JObj [(S_ "id", JObj (matcher (JNum (PosInt 7)))); (S_ "kind", JStr (S_ "x"))]);
       (S_ "children", JArr [JObj [(S_ "content", JStr (S_ "one")); (S_ "matcher", JObj [(S_ "pact:matcher:type", JStr (S_ "type"))])]]);
       (S_ "name", JStr (S_ "item"))]))]);
     (S_ "name", JStr (S_ "items"))])].
(** The second copy of the item has its attributes but not its text. *)
Example C110_example junk w : exists st,
  generate_xml_body w junk xml_document body_store = Ok (Some (XElem (S_ "items") []
     [XElem (S_ "item") [(S_ "id", S_ "7"); (S_ "kind", S_ "x")] [XText (S_ "one")]; XElem (S_ "item") [(S_ "id", S_ "7"); (S_ "kind", S_ "x")] []]), st) /\
  map (fun e => (path_expr (fst e), rl_rules (snd e))) (cat_rules (st_rules st)) =
    [(S_ "$.items.item", [XRule RType]); (S_ "$.items.item['@id']", [XRule RType]); (S_ "$.items.item.#text", [XRule RType])].
Proof. eexists. split; [vm_compute; reflexivity|]. vm_compute. reflexivity. Qed.
(** The hypotheses of [C110_every_description] are met. *)
Example C110_example_described junk w : exists root gs, body_described w junk xml_document (Some root) gs /\ length gs = 3%nat.
Proof.
  eexists. eexists. split.
  - eapply bd_root; [reflexivity| |].
    + eapply de_element; [cbn; intros [H|[H|[]]]; discriminate | reflexivity | reflexivity|]. eapply el_made; [split; reflexivity | left; reflexivity|].
      eapply cd_element with (n := 2).
      * eapply de_matcher; [right; left; reflexivity | reflexivity | reflexivity | apply pl_read; reflexivity | eapply mg_says; [right; left; reflexivity | apply (C75_what_a_matcher_says w junk); [right; left; reflexivity | reflexivity]]|].
        eapply el_made; [|left; reflexivity|].
        -- eapply ad_matcher; [left; reflexivity | reflexivity | apply pl_read; reflexivity | eapply mg_says; [left; reflexivity | apply (C75_what_a_matcher_says w junk); [left; reflexivity | reflexivity]]|].
           apply ad_plain; [discriminate | constructor].
        -- eapply cd_text; [|exists 1; apply ex_once; intros n H; discriminate | constructor].
           eapply de_text_matcher; [cbn; intros [H|[H|[]]]; discriminate | reflexivity | reflexivity | apply pl_read; reflexivity | eapply mg_says; [left; reflexivity | apply (C75_what_a_matcher_says w junk); [left; reflexivity | reflexivity]]].
      * discriminate.
      * apply ex_number. reflexivity.
      * apply repeated_iff; [discriminate | reflexivity].
      * constructor.
    + discriminate.
  - reflexivity.
Qed.
(** The rule of an element whose name cannot stand in a path is put at the root. *)
Example C110_odd_name junk w : exists st,
  generate_xml_body w junk [(S_ "root", JObj (matcher (JObj [(S_ "name", JStr (S_ "a[b"))])))] body_store = Ok (Some (XElem (S_ "a[b") [] []), st) /\
  map (fun e => (path_expr (fst e), rl_rules (snd e))) (cat_rules (st_rules st)) = [(S_ "$", [XRule RType])].
Proof. eexists. split; [vm_compute; reflexivity|]. vm_compute. reflexivity. Qed.
(** The name of an element with a prefix gives one step; a dot in a name gives two. *)
Example C110_dotted_name junk w : exists st,
  generate_xml_body w junk [(S_ "root", JObj (matcher (JObj [(S_ "name", JStr (S_ "a.b"))])))] body_store = Ok (Some (XElem (S_ "a.b") [] []), st) /\
  map (fun e => length (path_tokens (fst e))) (cat_rules (st_rules st)) = [3%nat].
Proof. eexists. split; [vm_compute; reflexivity|]. vm_compute. reflexivity. Qed.
(** The generator of a text is named beside [content], not in its [matcher]; its attributes are those of the matcher. *)
Example C110_text_generator junk w : exists st,
  generate_xml_body w junk [(S_ "root", JObj [(S_ "children", JArr [JObj [(S_ "content", JStr (S_ "x"));
     (S_ "matcher", JObj [(S_ "pact:generator:type", JStr (S_ "RandomString")); (S_ "pact:matcher:type", JStr (S_ "type"))])]]); (S_ "name", JStr (S_ "a"))])] body_store =
    Ok (Some (XElem (S_ "a") [] [XText (S_ "x")]), st) /\ cats_get GcBody (st_gens st) = None.
Proof. eexists. split; vm_compute; reflexivity. Qed.
(** Descriptions that panic: no name, children that are no array, an attribute's matcher without a value, a negative number of examples. *)
Example C110_panics junk w :
  generate_xml_body w junk [(S_ "root", JObj [])] body_store = Panic /\
  generate_xml_body w junk [(S_ "root", JObj [(S_ "children", JNull); (S_ "name", JStr (S_ "a"))])] body_store = Panic /\
  generate_xml_body w junk [(S_ "root", JObj [(S_ "attributes", JObj [(S_ "id", JObj [(S_ "pact:matcher:type", JStr (S_ "type"))])]); (S_ "name", JStr (S_ "a"))])] body_store = Panic /\
  generate_xml_body w junk [(S_ "root", JObj [(S_ "children", JArr [JObj [(S_ "examples", JNum (NegInt (-1))); (S_ "name", JStr (S_ "b"))]]); (S_ "name", JStr (S_ "a"))])] body_store = Panic.
Proof. vm_compute. auto. Qed.
