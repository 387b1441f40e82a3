(** C120: contents and metadata of messages given through the C interface. *)
From Coq Require Import Ascii String List Arith NArith ZArith Lia Bool.
From Verif Require Import Base PathExp Json Text MatchingRules Matchers Headers ContentType SpecQuery Http QueryProofs Expr Generators RuleExpr Integration SpecIntegration
  IntegrationValues FormJson XmlJson SpecXmlJson Merge PactFile Handles PropHandles2 PropHandles3 PropIntegration PropXmlJson PropXmlJson2 FfiBody SpecFfiBody PropFfiBody PropFfiBody2
  FfiMessage SpecFfiMessage.
Import ListNotations.
Open Scope N_scope.

Section Message.
Variable w : world.
Variable x : externals.
Variable junk : str -> nat.
Variable print_xml : option xtree -> list N.
Variable parse : str -> option json.

(** * Contents *)
Lemma container_dec : forall v, container v \/ ~ container v.
Proof. destruct v; cbn; tauto. Qed.
(** What the contents are after a call on an asynchronous message. *)
Theorem C120_contents : forall ct text raw m m', cat_name (xm_rules m) = CBody ->
  msg_with_contents w x junk print_xml ct text raw m = Ok m' -> contents_set w x junk print_xml ct text raw m m'.
Proof.
  intros ct text raw m m' CN H. unfold msg_with_contents in H. apply bind_ok' in H as ([b [r g]] & H & E). apply ok_same in E. cbn [fst snd st_rules st_gens] in E.
  unfold contents_of in H. destruct (parse_mime x _) as [t|] eqn:P.
  2:{ apply ok_same in H. apply pair_equal_spec in H as [Hb Hs]. injection Hs as -> ->. subst b m'. apply cs_untyped; [exact P | reflexivity]. }
  cbv zeta in H. set (s := match text with Some s => s | None => [] end) in *.
  assert (exists bytes, b = BPresent bytes (Some t) None /\ contents_become w x junk print_xml s raw t (xm_rules m) (xm_gens m) bytes r g) as (bytes & -> & B).
  { destruct (is_xml t) eqn:X; [|destruct (is_text t || is_json t) eqn:TJ].
    - apply bind_ok' in H as ([bytes st1] & H & E1). apply ok_same in E1. cbn [fst snd] in E1. apply pair_equal_spec in E1 as [-> E2]. subst st1. exists bytes. split; [reflexivity|].
      unfold process_xml in H. destruct (json_of_bytes x (utf8 s)) as [v|] eqn:V.
      + destruct (match v with JObj _ => false | _ => true end) eqn:K.
        * assert (@Ok _ unit ([], mkStore (xm_rules m) (xm_gens m)) = Ok (bytes, mkStore r g)) as H' by (destruct v; try discriminate; exact H).
          apply ok_same in H'. apply pair_equal_spec in H' as [-> H']. injection H' as -> ->. apply cb_lost; [exact X|]. intros o E1. rewrite V in E1. injection E1 as ->. discriminate.
        * destruct v as [| | | | |o]; try discriminate. apply bind_ok' in H as ([root st2] & P1 & P2). apply ok_same in P2. cbn [fst snd] in P2. apply pair_equal_spec in P2 as [-> E2]. subst st2.
          apply C110_what_is_made in P1 as (gs & BD & RA & GA & GO). cbn [st_rules st_gens] in *. eapply cb_xml; eauto.
      + apply ok_same in H. apply pair_equal_spec in H as [-> H]. injection H as -> ->. apply cb_lost; [exact X | congruence].
    - apply bind_ok' in H as ([out st1] & H & E1). apply ok_same in E1. cbn [fst snd] in E1. apply pair_equal_spec in E1 as [-> E2]. subst st1. exists (utf8 out). split; [reflexivity|].
      apply orb_true_iff in TJ. unfold process_json in H. destruct (json_of_bytes x (utf8 s)) as [v|] eqn:V.
      + destruct (container_dec v) as [C|NC].
        * assert (bind (process_json_value w junk v (mkStore (xm_rules m) (xm_gens m))) (fun r => @Ok _ unit (json_show w (fst r), snd r)) = Ok (out, mkStore r g)) as H' by (destruct v; try contradiction; exact H).
          apply bind_ok' in H' as ([v' st2] & P1 & P2). apply ok_same in P2. cbn [fst snd] in P2. apply pair_equal_spec in P2 as [-> E2]. subst st2.
          apply C75_document in P1 as (occs & R & RA & GA & GO & _). cbn [st_rules st_gens] in *. rewrite CN in GA, GO.
          eapply cb_json; eauto. intros c p NB. apply GO. exact NB.
        * assert (@Ok _ unit (s, mkStore (xm_rules m) (xm_gens m)) = Ok (out, mkStore r g)) as H' by (destruct v; try exact H; contradiction NC; exact I).
          apply ok_same in H'. apply pair_equal_spec in H' as [-> H']. injection H' as -> ->. apply cb_text; try assumption. intros v' E1. rewrite V in E1. injection E1 as <-. exact NC.
      + apply ok_same in H. apply pair_equal_spec in H as [-> H]. injection H as -> ->. apply cb_text; try assumption. congruence.
    - apply ok_same in H. apply pair_equal_spec in H as [-> H]. injection H as -> ->. exists raw. split; [reflexivity|]. apply orb_false_iff in TJ as [T J]. apply cb_bytes; assumption. }
  subst m'. eapply cs_typed with (bytes := bytes); try reflexivity; [exact P | exact B].
Qed.
(** A call on another kind of interaction changes nothing; one on an asynchronous message does its work unless a rule or a description
    of XML in it is wrong, and then it panics. *)
Theorem C120_only_async : forall ct text raw i, (forall m, i <> XAsync m) -> message_with_contents w x junk print_xml ct text raw i = Ok i.
Proof. intros ct text raw [v|m|q l] H; [reflexivity | contradiction (H m eq_refl) | reflexivity]. Qed.
Definition sound_text (s : str) (t : content_type) : Prop :=
  forall v, json_of_bytes x (utf8 s) = Some v -> ~ rule_panics w v /\
    (is_xml t = true -> forall o, v = JObj o -> exists root gs, body_described w junk o root gs).
Theorem C120_succeeds : forall ct text raw m, (forall s t, text = Some s -> sound_text s t) -> (json_of_bytes x [] = None) ->
  exists m', message_with_contents w x junk print_xml ct text raw (XAsync m) = Ok (XAsync m').
Proof.
  intros ct text raw m F J0. unfold message_with_contents, msg_with_contents.
  assert (exists r, contents_of w x junk print_xml ct text raw (mkStore (xm_rules m) (xm_gens m)) = Ok r) as [r ->]; [|cbn [bind]; eauto].
  unfold contents_of. destruct (parse_mime x _) as [t|]; [|eauto]. cbv zeta. set (s := match text with Some s => s | None => [] end).
  assert (sound_text s t) as G.
  { destruct text as [s0|]; [exact (F s0 t eq_refl)|]. intros v V. exfalso. cbn in s. subst s. cbn [utf8 flat_map] in V. congruence. }
  destruct (is_xml t) eqn:X.
  - assert (exists r, process_xml w x junk print_xml s (mkStore (xm_rules m) (xm_gens m)) = Ok r) as [r ->]; [|cbn [bind]; eauto].
    unfold process_xml. destruct (json_of_bytes x (utf8 s)) as [v|] eqn:V; [|eauto]. destruct (G v V) as [NP D]. destruct v as [| | | | |o]; eauto.
    destruct (D X o eq_refl) as (root & gs & B). destruct (C110_every_description w junk o root gs B NP (mkStore (xm_rules m) (xm_gens m))) as (st' & -> & _). cbn [bind]. eauto.
  - destruct (is_text t || is_json t); [|eauto].
    assert (exists r, process_json w x junk s (mkStore (xm_rules m) (xm_gens m)) = Ok r) as [r ->]; [|cbn [bind]; eauto].
    unfold process_json. destruct (json_of_bytes x (utf8 s)) as [v|] eqn:V; [|eauto]. destruct (G v V) as [NP _].
    assert (exists r, bind (process_json_value w junk v (mkStore (xm_rules m) (xm_gens m))) (fun r => @Ok _ unit (json_show w (fst r), snd r)) = Ok r) as [r R].
    { destruct (C75_outcome w junk v (mkStore (xm_rules m) (xm_gens m))) as [(v' & st' & ->)|[_ P]]; [cbn [bind]; eauto | exfalso; apply NP; exact P]. }
    destruct v; eauto.
Qed.
(** A text without matchers that is no JSON document is kept byte for byte, but a text with the type of XML is lost. *)
Theorem C120_plain_text : forall s raw t r g bytes r' g', json_of_bytes x (utf8 s) = None -> is_text t = true \/ is_json t = true ->
  contents_become w x junk print_xml s raw t r g bytes r' g' -> bytes = (if is_xml t then [] else utf8 s) /\ r' = r /\ g' = g.
Proof.
  intros s raw t r g bytes r' g' J T H. inversion H; subst; try congruence; try (destruct T; congruence).
  - rewrite H0. auto.
  - rewrite H0. auto.
Qed.

(** * Metadata *)
Lemma read_metadata : forall key value r g v' st', cat_name r = CMetadata -> metadata_value w junk parse key value (mkStore r g) = Ok (v', st') ->
  leaves w junk parse (VText value) (Some v') /\ leaves_rules w junk parse key (VText value) r g (st_rules st') (st_gens st').
Proof.
  intros key value r g v' st' CN H. unfold metadata_value in H. destruct (parse value) as [j|] eqn:P.
  - destruct (container_dec j) as [C|NC].
    + assert (match path_new_w w key with Ok p => process w junk (json_depth j) false false false p j (mkStore r g) | _ => Panic end = Ok (v', st')) as H' by (destruct j; try contradiction; exact H).
      destruct (path_new_w w key) as [p|e|] eqn:E; try discriminate.
      change p with (path_of p []) in H'. apply process_sound in H' as (occs & R & A). destruct A as (AR & AG & _). cbn [st_rules st_gens] in *. rewrite CN in AG. cbn [generators_of_kind] in AG.
      split; [eapply lv_read; eassumption|]. eapply lr_read; try eassumption.
      * intro q. rewrite AG, (proj2 (gcat_eqb_eq _ _) eq_refl). reflexivity.
      * intros c q NE. rewrite AG. destruct (gcat_eqb c GcMetadata) eqn:Q; [apply gcat_eqb_eq in Q; contradiction | reflexivity].
    + assert (@Ok _ unit (j, mkStore r g) = Ok (v', st')) as H' by (destruct j; try exact H; contradiction NC; exact I).
      apply ok_same in H'. apply pair_equal_spec in H' as [-> ->]. cbn [st_rules st_gens]. split; [apply lv_scalar; assumption|].
      apply lr_none. intros s j' E P'. injection E as <-. rewrite P in P'. injection P' as <-. exact NC.
  - apply ok_same in H. apply pair_equal_spec in H as [-> ->]. cbn [st_rules st_gens]. split; [apply lv_text; exact P|].
    apply lr_none. intros s j' E P'. injection E as <-. congruence.
Qed.
Lemma meta_value_set : forall key value m m', cat_name (xm_meta_rules m) = CMetadata -> msg_with_metadata w junk parse key value m = Ok m' ->
  meta_set w junk parse key (VText value) m m'.
Proof.
  intros key value m m' CN H. unfold msg_with_metadata in H. apply bind_ok' in H as ([v st] & H & E). apply ok_same in E. cbn [fst snd] in E. subst m'.
  apply read_metadata in H as [L LR]; [|exact CN].
  constructor; cbn [xm_body xm_rules xm_meta xm_meta_rules xm_gens]; try reflexivity; try assumption.
  - intros k NE. rewrite !entry_get, map_put_get. destruct (str_eqb_spec k key); [contradiction | reflexivity].
  - rewrite entry_get, map_put_get, str_eqb_refl. exact L.
Qed.
Lemma meta_removed : forall key m, NoDup (map fst (xm_meta m)) -> meta_set w junk parse key VNull m (with_meta m (map_remove key (xm_meta m))).
Proof.
  intros key m ND. constructor; cbn [with_meta xm_body xm_rules xm_meta xm_meta_rules xm_gens]; try reflexivity.
  - intros k NE. rewrite !entry_get, map_remove_get by exact ND. destruct (str_eqb_spec k key); [contradiction | reflexivity].
  - rewrite entry_get, map_remove_get, str_eqb_refl by exact ND. constructor.
  - apply lr_none. discriminate.
Qed.
Lemma each_forall2 : forall (f : xmsg -> outcome xmsg unit) (R : xmsg -> xmsg -> Prop) l l',
  (forall m m', In m l -> f m = Ok m' -> R m m') -> each f l = Ok l' -> Forall2 R l l'.
Proof.
  intros f R l. induction l as [|m l IH]; intros l' HR H; cbn [each] in H.
  - apply ok_same in H. subst. constructor.
  - apply bind_ok' in H as (m1 & H1 & H). apply bind_ok' in H as (l1 & H2 & H). apply ok_same in H. subst l'.
    constructor; [apply HR; [left; reflexivity | exact H1]|]. apply IH; [|exact H2]. intros a b I. apply HR. right. exact I.
Qed.
(** The names of the metadata of a message are different, and its rules are kept where they belong. *)
Definition in_order (m : xmsg) : Prop := NoDup (map fst (xm_meta m)) /\ cat_name (xm_meta_rules m) = CMetadata.
Lemma metadata_kept : forall started key v s i i' ok, Forall in_order (messages_of s i) ->
  with_metadata w junk parse started key v s i = Ok (i', ok) ->
  (ok = true -> started = false /\ v <> VBad /\ ~ is_http_int i /\ exists k, key = Some k /\ on_messages (fun m m' => meta_set w junk parse k v m m' /\ in_order m') s i i') /\
  (ok = false -> i' = i /\ (started = true \/ v = VBad \/ is_http_int i \/ key = None)).
Proof.
  intros started key v s i i' ok O H. unfold with_metadata in H. destruct key as [k|].
  2:{ apply ok_same in H. apply pair_equal_spec in H as [-> ->]. split; [discriminate|]. auto. }
  destruct (match v with VBad => true | _ => false end) eqn:VB.
  { destruct v; try discriminate. apply ok_same in H. apply pair_equal_spec in H as [-> ->]. split; [discriminate|]. auto. }
  assert (NB : v <> VBad) by (intros ->; discriminate).
  set (f := match v with VText t => msg_with_metadata w junk parse k t | _ => fun m => Ok (with_meta m (map_remove k (xm_meta m))) end) in *.
  assert (H' : (if started then Ok (i, false) else
      match i, s with
      | XHttp _, _ => Ok (i, false)
      | XAsync m, _ => bind (f m) (fun m => Ok (XAsync m, true))
      | XSync q l, Request => bind (f q) (fun q => Ok (XSync q l, true))
      | XSync q l, Response => bind (each f l) (fun l => Ok (XSync q l, true))
      end) = Ok (i', ok)) by (destruct v; try discriminate; exact H).
  clear H. destruct started.
  { apply ok_same in H'. apply pair_equal_spec in H' as [-> ->]. split; [discriminate|]. auto. }
  assert (F : forall m m', in_order m -> f m = Ok m' -> meta_set w junk parse k v m m' /\ in_order m').
  { intros m m' [ND CN] E. unfold f in E. destruct v as [| |t]; [|discriminate|].
    - apply ok_same in E. subst m'. split; [apply meta_removed, ND|]. split; [apply map_remove_nodup, ND | exact CN].
    - split; [apply meta_value_set; assumption|]. unfold msg_with_metadata in E. apply bind_ok' in E as ([v st] & E & E'). apply ok_same in E'. subst m'. cbn [fst snd].
      split; [apply map_put_nodup, ND|]. cbn [xm_meta_rules]. apply read_metadata in E as [_ LR]; [|exact CN]. inversion LR; subst; [congruence|].
      match goal with R : rules_added _ _ _ _ |- _ => destruct R as [Q _]; rewrite Q; exact CN end. }
  clearbody f. destruct i as [p|m|q l].
  - apply ok_same in H'. apply pair_equal_spec in H' as [-> ->]. split; [discriminate|]. intros _. split; [reflexivity|]. right. right. left. exists p. reflexivity.
  - apply bind_ok' in H' as (m' & E & H'). apply ok_same in H'. apply pair_equal_spec in H' as [-> ->]. split; [|discriminate]. intros _.
    split; [reflexivity|]. split; [exact NB|]. split; [intros [p E']; discriminate|]. exists k. split; [reflexivity|]. apply om_message, F; [|exact E]. inversion O; assumption.
  - destruct s.
    + apply bind_ok' in H' as (m' & E & H'). apply ok_same in H'. apply pair_equal_spec in H' as [-> ->]. split; [|discriminate]. intros _.
      split; [reflexivity|]. split; [exact NB|]. split; [intros [p E']; discriminate|]. exists k. split; [reflexivity|]. apply om_request, F; [|exact E]. inversion O; assumption.
    + apply bind_ok' in H' as (l' & E & H'). apply ok_same in H'. apply pair_equal_spec in H' as [-> ->]. split; [|discriminate]. intros _.
      split; [reflexivity|]. split; [exact NB|]. split; [intros [p E']; discriminate|]. exists k. split; [reflexivity|]. apply om_responses. eapply each_forall2; [|exact E].
      intros a b I. apply F. cbn [messages_of] in O. rewrite Forall_forall in O. exact (O a I).
Qed.
Lemma on_messages_impl : forall (R R' : xmsg -> xmsg -> Prop) s i i', (forall m m', R m m' -> R' m m') -> on_messages R s i i' -> on_messages R' s i i'.
Proof.
  intros R R' s i i' H O. destruct O as [s m m' X|q q' l X|q l l' X]; constructor; auto.
  induction X; constructor; auto.
Qed.
Theorem C120_metadata : forall started key v s i i' ok, Forall in_order (messages_of s i) ->
  with_metadata w junk parse started key v s i = Ok (i', ok) ->
  (ok = true -> started = false /\ v <> VBad /\ ~ is_http_int i /\ exists k, key = Some k /\ on_messages (meta_set w junk parse k v) s i i') /\
  (ok = false -> i' = i /\ (started = true \/ v = VBad \/ is_http_int i \/ key = None)).
Proof.
  intros started key v s i i' ok O H. apply metadata_kept in H as [HT HF]; [|exact O]. split; [|exact HF].
  intro T. destruct (HT T) as (A & B & C & k & Ek & OM). split; [exact A|]. split; [exact B|]. split; [exact C|]. exists k. split; [exact Ek|].
  eapply on_messages_impl; [|exact OM]. intros m m' [X _]. exact X.
Qed.

(** The call is carried out if the value has no structure, or the name is a path and no rule in the value is wrong. *)
Definition sound_value (key : str) (v : mvalue) : Prop :=
  forall s j, v = VText s -> parse s = Some j -> container j -> (exists p, path_new_w w key = Ok p) /\ ~ rule_panics w j.
Lemma metadata_value_ok : forall key s st, sound_value key (VText s) -> exists r, metadata_value w junk parse key s st = Ok r.
Proof.
  intros key s st SV. unfold metadata_value. destruct (parse s) as [j|] eqn:P; [|eauto].
  destruct (container_dec j) as [C|NC].
  - destruct (SV s j eq_refl P C) as [[p Ep] NP].
    assert (exists r, match path_new_w w key with Ok p => process w junk (json_depth j) false false false p j st | _ => Panic end = Ok r) as [r R].
    { rewrite Ep. destruct (process w junk (json_depth j) false false false p j st) as [r|e|] eqn:E; [eauto | |].
      - exfalso. destruct e. revert E. apply process_total. lia.
      - exfalso. apply NP. eapply process_panics. exact E. }
    exists r. destruct j; try contradiction; exact R.
  - exists (j, st). destruct j; try reflexivity; contradiction NC; exact I.
Qed.
Theorem C120_metadata_succeeds : forall started key v s i, (forall k, key = Some k -> sound_value k v) ->
  exists i' ok, with_metadata w junk parse started key v s i = Ok (i', ok) /\
    (ok = true <-> started = false /\ v <> VBad /\ ~ is_http_int i /\ key <> None).
Proof.
  intros started key v s i SV. destruct key as [k|].
  2:{ exists i, false. split; [reflexivity|]. split; [discriminate|]. intros (_ & _ & _ & N). contradiction N. reflexivity. }
  destruct (match v with VBad => true | _ => false end) eqn:VB.
  { destruct v; try discriminate. exists i, false. split; [reflexivity|]. split; [discriminate|]. intros (_ & N & _). contradiction N. reflexivity. }
  assert (NB : v <> VBad) by (intros ->; discriminate).
  set (f := match v with VText t => msg_with_metadata w junk parse k t | _ => fun m => Ok (with_meta m (map_remove k (xm_meta m))) end).
  assert (F : forall m, exists m', f m = Ok m').
  { intro m. unfold f. destruct v as [| |t]; [eauto | eauto |]. unfold msg_with_metadata.
    destruct (metadata_value_ok k t (mkStore (xm_meta_rules m) (xm_gens m)) (SV k eq_refl)) as [r ->]. cbn [bind]. eauto. }
  assert (E : with_metadata w junk parse started (Some k) v s i = if started then Ok (i, false) else
      match i, s with
      | XHttp _, _ => Ok (i, false)
      | XAsync m, _ => bind (f m) (fun m => Ok (XAsync m, true))
      | XSync q l, Request => bind (f q) (fun q => Ok (XSync q l, true))
      | XSync q l, Response => bind (each f l) (fun l => Ok (XSync q l, true))
      end) by (destruct v; try discriminate; reflexivity).
  rewrite E. clearbody f. destruct started.
  { exists i, false. split; [reflexivity|]. split; [discriminate|]. intros [N _]. discriminate. }
  destruct i as [p|m|q l].
  - exists (XHttp p), false. split; [reflexivity|]. split; [discriminate|]. intros (_ & _ & N & _). contradiction N. exists p. reflexivity.
  - destruct (F m) as [m' ->]. cbn [bind]. exists (XAsync m'), true. split; [reflexivity|]. split; [|reflexivity]. intros _. split; [reflexivity|]. split; [exact NB|]. split; [intros [p Z]; discriminate | discriminate].
  - destruct s.
    + destruct (F q) as [m' ->]. cbn [bind]. eexists. exists true. split; [reflexivity|]. split; [|reflexivity]. intros _. split; [reflexivity|]. split; [exact NB|]. split; [intros [p Z]; discriminate | discriminate].
    + assert (exists l', each f l = Ok l') as [l' ->].
      { clear - F. induction l as [|m l [l' IH]]; [exists []; reflexivity|]. cbn [each]. destruct (F m) as [m' ->]. cbn [bind]. rewrite IH. cbn [bind]. eauto. }
      cbn [bind]. eexists. exists true. split; [reflexivity|]. split; [|reflexivity]. intros _. split; [reflexivity|]. split; [exact NB|]. split; [intros [p Z]; discriminate | discriminate].
Qed.
(** The older calls: a text that is not read, and the one that reads it; both only for asynchronous messages. *)
Theorem C120_older_call : forall key value i,
  match key, i with
  | Some k, XAsync m => exists m', message_with_metadata key value i = XAsync m' /\
      xm_body m' = xm_body m /\ xm_rules m' = xm_rules m /\ xm_meta_rules m' = xm_meta_rules m /\ xm_gens m' = xm_gens m /\
      forall k', entry k' (xm_meta m') = if str_eqb k' k then Some (JStr (match value with Some v => v | None => [] end)) else entry k' (xm_meta m)
  | _, _ => message_with_metadata key value i = i
  end.
Proof.
  intros [k|] value [p|m|q l]; try reflexivity. cbn [message_with_metadata]. eexists. split; [reflexivity|]. cbn [with_meta xm_body xm_rules xm_meta xm_meta_rules xm_gens].
  repeat (split; [reflexivity|]). intro k'. rewrite !entry_get, map_put_get. reflexivity.
Qed.
Theorem C120_second_call : forall key value i i', Forall in_order (messages_of Request i) ->
  message_with_metadata_v2 w junk parse key value i = Ok i' ->
  match key, i with
  | Some k, XAsync m => on_messages (meta_set w junk parse k (VText (match value with Some v => v | None => [] end))) Request i i'
  | _, _ => i' = i
  end.
Proof.
  intros [k|] value [p|m|q l] i' O H; cbn [message_with_metadata_v2] in H; try (apply ok_same in H; exact H).
  apply bind_ok' in H as (m' & E & H). apply ok_same in H. subst i'. apply om_message. apply meta_value_set; [|exact E]. inversion O as [|a b [_ CN]]; subst. exact CN.
Qed.

(** * Any number of calls: the last one about a name decides *)
Definition kept_step (c : meta_call) (i : xint) (s : side) (m m' : xmsg) : Prop :=
  (about i c s (mc_key c) -> leaves w junk parse (mc_value c) (entry (mc_key c) (xm_meta m'))) /\
  forall k, ~ about i c s k -> entry k (xm_meta m') = entry k (xm_meta m).
Lemma kept_refl : forall c i s l, ~ about i c s (mc_key c) -> Forall2 (kept_step c i s) l l.
Proof. intros c i s l NA. induction l as [|m l IH]; constructor; [|exact IH]. split; [intro A; contradiction | reflexivity]. Qed.
Lemma kept_of_set : forall c i s m m', meta_set w junk parse (mc_key c) (mc_value c) m m' -> (mc_value c <> VBad) ->
  (mc_side c = s \/ exists m, i = XAsync m) -> kept_step c i s m m'.
Proof.
  intros c i s m m' [_ _ OT LV _] NB SD. split; [intros _; exact LV|]. intros k NA. apply OT. intros ->. apply NA. split; [reflexivity|]. split; assumption.
Qed.
Lemma step_kept : forall c i i1 ok, (forall s, Forall in_order (messages_of s i)) ->
  with_metadata w junk parse false (Some (mc_key c)) (mc_value c) (mc_side c) i = Ok (i1, ok) ->
  (forall s, Forall in_order (messages_of s i1)) /\ ((exists m, i = XAsync m) <-> exists m, i1 = XAsync m) /\
  forall s, Forall2 (kept_step c i s) (messages_of s i) (messages_of s i1).
Proof.
  intros c i i1 ok O H. apply metadata_kept in H as [HT HF]; [|apply O]. destruct ok.
  - destruct (HT eq_refl) as (_ & NB & NH & k & Ek & OM). injection Ek as <-. clear HT HF.
    remember (mc_side c) as sd eqn:SD. destruct OM as [sd m m' [X KO]|q q' l [X KO]|q l l' X].
    + split; [intro s; constructor; [exact KO | constructor]|]. split; [split; intros _; eexists; reflexivity|].
      intro s. constructor; [|constructor]. apply kept_of_set; [exact X | exact NB | right; eexists; reflexivity].
    + split; [intros [|]; [constructor; [exact KO | constructor] | exact (O Response)]|]. split; [split; intros [m Z]; discriminate|].
      intros [|].
      * constructor; [|constructor]. apply kept_of_set; [exact X | exact NB | left; symmetry; exact SD].
      * apply kept_refl. intros (_ & _ & [Z|[m Z]]); [rewrite <- SD in Z; discriminate | discriminate].
    + split; [intros [|]; [exact (O Request)|]|].
      { clear - X. cbn [messages_of]. induction X as [|m m' l l' [_ KO] X IH]; constructor; auto. }
      split; [split; intros [m Z]; discriminate|]. intros [|].
      * apply kept_refl. intros (_ & _ & [Z|[m Z]]); [rewrite <- SD in Z; discriminate | discriminate].
      * clear - X NB SD. cbn [messages_of]. generalize (XSync q l) as i0. intro i0. induction X as [|m m' l l' [Y KO] X IH]; constructor; auto.
        apply kept_of_set; [exact Y | exact NB | left; symmetry; exact SD].
  - destruct (HF eq_refl) as (-> & D). split; [exact O|]. split; [tauto|]. intro s. destruct D as [D|[D|[[p ->]|D]]]; try discriminate.
    + apply kept_refl. intros (_ & N & _). contradiction.
    + destruct s; constructor.
Qed.
Lemma about_same : forall c s k i j, ((exists m, i = XAsync m) <-> exists m, j = XAsync m) -> about i c s k <-> about j c s k.
Proof. intros c s k i j E. unfold about. tauto. Qed.
(** Names no call is about keep their values. *)
Lemma runs_kept : forall cs i i', calls_run w junk parse cs i i' -> (forall s, Forall in_order (messages_of s i)) ->
  (forall s, Forall in_order (messages_of s i')) /\ ((exists m, i = XAsync m) <-> exists m, i' = XAsync m) /\
  forall s k, (forall c, In c cs -> ~ about i c s k) ->
    Forall2 (fun m m' => entry k (xm_meta m') = entry k (xm_meta m)) (messages_of s i) (messages_of s i').
Proof.
  intros cs i i' H. induction H as [i|c cs i i1 i2 ok E H IH]; intro O.
  - split; [exact O|]. split; [tauto|]. intros s k _. induction (messages_of s i); constructor; auto.
  - apply step_kept in E as (O1 & A1 & K1); [|exact O]. destruct (IH O1) as (O2 & A2 & K2). split; [exact O2|]. split; [tauto|].
    intros s k NA. specialize (K1 s). specialize (K2 s k). assert (Forall2 (fun m m' => entry k (xm_meta m') = entry k (xm_meta m)) (messages_of s i1) (messages_of s i2)) as K2'.
    { apply K2. intros c' I Z. apply (NA c'); [right; exact I|]. apply (about_same c' s k i i1 A1). exact Z. }
    clear K2. revert K2'. generalize (messages_of s i2). induction K1 as [|m m1 l l1 [_ KK] K1 IK]; intros l2 K2'; inversion K2'; subst; constructor.
    + etransitivity; [eassumption|]. apply KK. apply NA. left. reflexivity.
    + apply IK. assumption.
Qed.
Theorem C120_last_call_decides : forall earlier c later i i' s k, (forall s, Forall in_order (messages_of s i)) ->
  calls_run w junk parse (earlier ++ c :: later) i i' -> about i c s k -> (forall c', In c' later -> ~ about i c' s k) ->
  Forall (fun m => leaves w junk parse (mc_value c) (entry k (xm_meta m))) (messages_of s i').
Proof.
  intros earlier. induction earlier as [|c0 earlier IH]; intros c later i i' s k O H A NL; cbn [app] in H; inversion H as [|c1 cs1 i0 i1 i2 ok E R]; subst.
  - apply step_kept in E as (O1 & A1 & K1); [|exact O]. destruct (runs_kept _ _ _ R O1) as (_ & _ & K2). specialize (K2 s k).
    assert (Forall2 (fun m m' => entry k (xm_meta m') = entry k (xm_meta m)) (messages_of s i1) (messages_of s i')) as K2'.
    { apply K2. intros c' I Z. apply (NL c' I). apply (about_same c' s k i i1 A1). exact Z. }
    clear K2. specialize (K1 s). revert K2'. generalize (messages_of s i'). pose proof A as (Ek & _). induction K1 as [|m m1 l l1 [KK _] K1 IK]; intros l2 K2'; inversion K2'; subst; constructor.
    + match goal with E : entry _ _ = entry _ _ |- _ => rewrite E end. apply KK. exact A.
    + apply IK. assumption.
  - apply step_kept in E as (O1 & A1 & _); [|exact O]. apply (IH c later i1 i' s k O1 R).
    + apply (about_same c s k i i1 A1). exact A.
    + intros c' I Z. apply (NL c' I). apply (about_same c' s k i i1 A1). exact Z.
Qed.
Theorem C120_other_names_keep : forall cs i i' s k, (forall s, Forall in_order (messages_of s i)) ->
  calls_run w junk parse cs i i' -> (forall c, In c cs -> ~ about i c s k) ->
  Forall2 (fun m m' => entry k (xm_meta m') = entry k (xm_meta m)) (messages_of s i) (messages_of s i').
Proof. intros cs i i' s k O H NA. destruct (runs_kept _ _ _ H O) as (_ & _ & K). exact (K s k NA). Qed.
End Message.
