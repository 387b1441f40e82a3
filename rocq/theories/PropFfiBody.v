(** C115: bodies given through the C interface. *)
From Coq Require Import Ascii String List Arith NArith ZArith Lia Bool.
From Verif Require Import Base PathExp Json Text MatchingRules Matchers Headers ContentType SpecQuery Http QueryProofs Expr Generators RuleExpr Integration SpecIntegration
  FormJson SpecFormJson XmlJson SpecXmlJson Merge PactFile PropHandles2 PropIntegration PropXmlJson PropXmlJson2 PropFormJson FfiBody SpecFfiBody.
Import ListNotations.
Open Scope N_scope.

Lemma ok_same : forall A E (a b : A), @Ok A E a = Ok b -> b = a.
Proof. intros A E a b H. injection H as ->. reflexivity. Qed.
Lemma bind_ok' : forall A B E (m : outcome A E) (f : A -> outcome B E) b, bind m f = Ok b -> exists a, m = Ok a /\ f a = Ok b.
Proof. intros A B E [a|e|] f b H; try discriminate. exists a. split; [reflexivity | exact H]. Qed.

Section Texts.
Variable w : world.
Variable x : externals.
Variable junk : str -> nat.
Variable print_xml : option xtree -> list N.

Lemma type_of_part : forall b h o, calc_content_type w x b h = Ok o -> has_type w x b h o.
Proof.
  intros b h o H. unfold calc_content_type in H. destruct (body_content_type b) as [t|] eqn:B.
  - apply ok_same in H. subst o. apply ht_body, B.
  - apply bind_ok' in H as (t & H1 & H2). apply ok_same in H2.
    assert (match t with Some t => header_says w x h t | None => forall t, ~ header_says w x h t end) as S.
    { destruct h as [m|].
      - destruct (find_header w m (S_ "content-type")) as [[|v vs]|] eqn:F; try discriminate; apply ok_same in H1; subst t.
        + destruct (parse_mime x v) as [t|] eqn:P; [exists m, v, vs; auto|]. intros t (m' & v' & vs' & E & F' & P'). injection E as <-. rewrite F in F'. injection F' as <- _. congruence.
        + intros t (m' & v' & vs' & E & F' & _). injection E as <-. congruence.
      - apply ok_same in H1. subst t. intros t (m & v & vs & E & _). discriminate. }
    destruct t as [t|]; cbn [Http.or_else] in H2; subst o.
    + apply ht_header; assumption.
    + destruct (body_present b) eqn:P; [|apply ht_none; [exact B | exact S | discriminate + (intro Z; rewrite P in Z; discriminate)]].
      destruct (detect_bytes x (body_bytes b)) as [t|] eqn:D; [apply ht_found | apply ht_none]; auto.
Qed.
Lemma chosen : forall s given hint, type_chosen x s given hint (match given with Some c => c | None => match hint with Some c => c | None => detect_text x s end end).
Proof. intros s [c|] [h|]; constructor. Qed.
Lemma vacant : forall h t, put_if_vacant (S_ "Content-Type") (option_map (fun c => [ct_show c]) t) (headers_of h)
  (headers_of (match t with Some c => header_if_vacant h c | None => h end)).
Proof.
  intros h [t|]; cbn [option_map]; [|split; [reflexivity|]; destruct (entry _ _); reflexivity].
  unfold header_if_vacant, type_header. destruct h as [m|]; cbn [headers_of].
  - unfold obj_has. destruct (obj_get (S_ "Content-Type") m) as [u|] eqn:G; split; intros; rewrite ?entry_get, ?G; try reflexivity.
    + rewrite map_put_get. destruct (str_eqb_spec k (S_ "Content-Type")); [contradiction | reflexivity].
    + rewrite map_put_get, str_eqb_refl, (entry_get _ (S_ "Content-Type") m), G. reflexivity.
  - split; [|reflexivity]. intros k NE. rewrite !entry_get. cbn [obj_get]. destruct (str_eqb_spec k (S_ "Content-Type")); [contradiction | reflexivity].
Qed.
Lemma vacant_meta : forall md t, put_if_vacant (S_ "contentType") (Some (JStr (ct_show t))) md (meta_if_vacant md t).
Proof.
  intros m t. unfold meta_if_vacant, obj_has. destruct (obj_get (S_ "contentType") m) as [u|] eqn:G; split; intros; rewrite ?entry_get, ?G; try reflexivity.
  - rewrite map_put_get. destruct (str_eqb_spec k (S_ "contentType")); [contradiction | reflexivity].
  - rewrite map_put_get, str_eqb_refl, (entry_get _ (S_ "contentType") m), G. reflexivity.
Qed.
Lemma body_kind : forall g, match g with GcBody => True | _ => g <> GcBody end.
Proof. destruct g; try discriminate; exact I. Qed.
Theorem C115_text : forall s given hint r g b st', s <> [] -> cat_name r = CBody ->
  process_body w x junk print_xml s given hint (mkStore r g) = Ok (b, st') ->
  exists t bytes, type_chosen x s given hint t /\ b = BPresent bytes (Some t) None /\
    text_becomes w x junk print_xml s t r g bytes (st_rules st') (st_gens st').
Proof.
  intros s given hint r g b st' NE CN H. unfold process_body in H. destruct s as [|c0 s0]; [contradiction|]. set (s := c0 :: s0) in *. cbv zeta in H.
  set (t := match given with Some c => c | None => match hint with Some c => c | None => detect_text x s end end) in *. exists t.
  assert (CH : type_chosen x s given hint t) by apply chosen. clearbody t.
  destruct (is_json t) eqn:J.
  - apply bind_ok' in H as ([text st1] & P & H). apply ok_same in H. apply pair_equal_spec in H as [-> ->]. cbn [fst snd]. exists (utf8 text).
    split; [exact CH|]. split; [reflexivity|]. unfold process_json in P.
    destruct (json_of_bytes x (utf8 s)) as [v|] eqn:V.
    + destruct (match v with JObj _ | JArr _ => true | _ => false end) eqn:K.
      * assert (container v) as C by (destruct v; try discriminate; exact I).
        assert (bind (process_json_value w junk v (mkStore r g)) (fun r => @Ok _ unit (json_show w (fst r), snd r)) = Ok (text, st1)) as P' by (destruct v; try discriminate; exact P).
        apply bind_ok' in P' as ([v' st2] & P1 & P2). apply ok_same in P2. apply pair_equal_spec in P2 as [-> ->]. cbn [fst snd].
        apply C75_document in P1 as (occs & R & RA & GA & GO & _). cbn [st_rules st_gens] in *. rewrite CN in GA, GO.
        apply tb_json with (v := v) (occs := occs); try assumption. intros ca p NB. apply GO. exact NB.
      * assert (@Ok _ unit (s, mkStore r g) = Ok (text, st1)) as P' by (destruct v; try discriminate; exact P).
        apply ok_same in P'. apply pair_equal_spec in P' as [-> ->]. apply tb_other_json; [exact J|]. intros v' E. rewrite V in E. injection E as <-. destruct v; try discriminate; auto.
    + apply ok_same in P. apply pair_equal_spec in P as [-> ->]. apply tb_other_json; [exact J|]. congruence.
  - destruct (is_xml t) eqn:X.
    + destruct (is_json (detect_text x s)) eqn:D.
      * assert (describes_other x s t) as DO by (split; [exact J | split; [exact D | left; exact X]]).
        apply bind_ok' in H as ([bytes st1] & P & H). apply ok_same in H. apply pair_equal_spec in H as [-> ->]. cbn [fst snd]. exists bytes.
        split; [exact CH|]. split; [reflexivity|]. unfold process_xml in P.
        destruct (json_of_bytes x (utf8 s)) as [v|] eqn:V.
        -- destruct (match v with JObj _ => false | _ => true end) eqn:K.
           { assert (@Ok _ unit ([], mkStore r g) = Ok (bytes, st1)) as P' by (destruct v; try discriminate; exact P).
             apply ok_same in P'. apply pair_equal_spec in P' as [-> ->]. apply tb_no_xml; [exact DO | exact X|]. intros m E. rewrite V in E. injection E as ->. discriminate. }
           destruct v as [| | | | |m]; try discriminate.
           apply bind_ok' in P as ([root st2] & P1 & P2). apply ok_same in P2. apply pair_equal_spec in P2 as [-> ->]. cbn [fst snd].
           apply C110_what_is_made in P1 as (gs & BD & RA & GA & GO). cbn [st_rules st_gens] in *.
           apply tb_xml with (m := m) (gs := gs); assumption.
        -- apply ok_same in P. apply pair_equal_spec in P as [-> ->]. apply tb_no_xml; [exact DO | exact X | congruence].
      * apply ok_same in H. apply pair_equal_spec in H as [-> ->]. exists (utf8 s). split; [exact CH|]. split; [reflexivity|].
        apply tb_as_it_is; [exact J|]. intros (_ & D' & _). congruence.
    + destruct (is_form_urlencoded t) eqn:F.
      * destruct (is_json (detect_text x s)) eqn:D.
        -- assert (describes_other x s t) as DO by (split; [exact J | split; [exact D | right; exact F]]).
           apply bind_ok' in H as ([text [r1 g1]] & P & H). apply ok_same in H. apply pair_equal_spec in H as [-> ->]. cbn [fst snd st_rules st_gens]. exists (utf8 text).
           split; [exact CH|]. split; [reflexivity|]. destruct (json_of_bytes x (utf8 s)) as [v|] eqn:V; [|discriminate]. eapply tb_form; eauto.
        -- apply ok_same in H. apply pair_equal_spec in H as [-> ->]. exists (utf8 s). split; [exact CH|]. split; [reflexivity|].
           apply tb_as_it_is; [exact J|]. intros (_ & D' & _). congruence.
      * apply ok_same in H. apply pair_equal_spec in H as [-> ->]. exists (utf8 s). split; [exact CH|]. split; [reflexivity|].
        apply tb_as_it_is; [exact J|]. intros (_ & _ & [D'|D']); congruence.
Qed.
Lemma part_text : forall s given p p', cat_name (fp_rules p) = CBody -> part_with_text w x junk print_xml s given p = Ok p' -> text_set w x junk print_xml s given p p'.
Proof.
  intros s given p p' CN H. unfold part_with_text in H. apply bind_ok' in H as (hint & H1 & H). apply bind_ok' in H as ([b st'] & H2 & H). apply bind_ok' in H as (ct & H3 & H).
  apply ok_same in H. cbn [fst snd] in *. subst p'. apply type_of_part in H1. split; [reflexivity|]. cbn [fp_body fp_rules fp_gens fp_headers fp_header_rules].
  destruct s as [|c s].
  - cbn [process_body] in H2. apply ok_same in H2. apply pair_equal_spec in H2 as [-> ->]. repeat (apply conj); try reflexivity.
    exists ct. split; [apply type_of_part, H3 | apply vacant].
  - apply C115_text in H2 as (t & bytes & CH & -> & TB); [|discriminate | exact CN]. exists hint, t, bytes. repeat (apply conj); try assumption; try reflexivity;
    unfold calc_content_type in H3; cbn [body_content_type] in H3; apply ok_same in H3; subst ct; apply (vacant (fp_headers p) (Some t)).
Qed.
Lemma message_text : forall s given m m', cat_name (fm_rules m) = CBody -> msg_with_text w x junk print_xml s given m = Ok m' -> message_text_set w x junk print_xml s given m m'.
Proof.
  intros s given m m' CN H. unfold msg_with_text in H. apply bind_ok' in H as ([b st'] & H2 & H). apply bind_ok' in H as (ct & H3 & H).
  apply ok_same in H. cbn [fst snd] in *. subst m'. unfold message_text_set. cbn [fm_body fm_rules fm_gens fm_meta].
  destruct s as [|c s].
  - cbn [process_body] in H2. apply ok_same in H2. apply pair_equal_spec in H2 as [-> ->]. repeat (apply conj); try reflexivity.
    unfold calc_content_type, metadata_to_headers in H3. cbn [body_content_type body_present] in H3. destruct (obj_get (S_ "contentType") (fm_meta m)) as [v|] eqn:G.
    + intro k. destruct ct as [t|]; [|reflexivity]. unfold meta_if_vacant, obj_has. rewrite G. reflexivity.
    + cbn [bind Http.or_else] in H3. apply ok_same in H3. subst ct. reflexivity.
  - apply C115_text in H2 as (t & bytes & CH & -> & TB); [|discriminate | exact CN]. exists t, bytes. repeat (apply conj); try assumption; try reflexivity;
    unfold calc_content_type in H3; cbn [body_content_type] in H3; apply ok_same in H3; subst ct; apply vacant_meta.
Qed.
(** Where the parts keep their body rules. *)
Definition named_right (i : fint) : Prop :=
  match i with
  | FIHttp q p => cat_name (fp_rules q) = CBody /\ cat_name (fp_rules p) = CBody
  | FIAsync m => cat_name (fm_rules m) = CBody
  | FISync q _ => cat_name (fm_rules q) = CBody
  end.
Theorem C115_with_body : forall started s ct text i i' ok, named_right i -> with_body w x junk print_xml started s ct text i = Ok (i', ok) ->
  ok = negb started /\
  exists given, (ct = None -> given = None) /\ (forall t, ct = Some t -> given = parse_mime x t /\ given <> None) /\
    let s' := match text with Some t => t | None => [] end in
    one_side (text_set w x junk print_xml s' given) (message_text_set w x junk print_xml s' given) s i i'.
Proof.
  intros started s ct text i i' ok NR H. unfold with_body in H. apply bind_ok' in H as (given & G & H). apply bind_ok' in H as (i1 & H & E). apply ok_same in E.
  apply pair_equal_spec in E as [-> ->]. split; [reflexivity|]. exists given. split; [|split].
  - intros ->. cbn in G. apply ok_same in G. exact G.
  - intros t ->. cbn [given_type] in G. destruct (parse_mime x t); [|discriminate]. apply ok_same in G. subst given. split; [reflexivity | discriminate].
  - cbv zeta. destruct i as [q p|m|q l], s; cbn [on_side named_right] in *; apply bind_ok' in H as (y & H & E); apply ok_same in E; subst i1.
    + apply os_request, part_text; [apply NR | exact H].
    + apply os_response, part_text; [apply NR | exact H].
    + apply os_message, message_text; assumption.
    + apply os_message, message_text; assumption.
    + apply os_sync_request, message_text; assumption.
    + apply os_sync_response, message_text; [reflexivity | exact H].
Qed.
End Texts.
