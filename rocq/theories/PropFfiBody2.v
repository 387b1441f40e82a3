(** C115, second part: when a call succeeds, bytes, and examples. *)
From Coq Require Import Ascii String List Arith NArith ZArith Lia Bool.
From Verif Require Import Base PathExp Json Text MatchingRules Matchers Headers ContentType SpecQuery Http QueryProofs Expr Generators RuleExpr Integration SpecIntegration
  FormJson SpecFormJson XmlJson SpecXmlJson Merge PactFile PropHandles2 PropIntegration PropXmlJson PropXmlJson2 PropFormJson FfiBody SpecFfiBody PropFfiBody.
Import ListNotations.
Open Scope N_scope.

Section Texts.
Variable w : world.
Variable x : externals.
Variable junk : str -> nat.
Variable print_xml : option xtree -> list N.

(** No header of the type without a value. *)
Definition headers_valued (h : option hmap) : Prop := forall m, h = Some m -> find_header w m (S_ "content-type") <> Some [].
(** The text can be read for the type [t]. *)
Definition text_fine (s : str) (t : content_type) : Prop :=
  (forall v, json_of_bytes x (utf8 s) = Some v -> ~ rule_panics w v) /\
  (describes_other x s t -> is_xml t = true -> forall m, json_of_bytes x (utf8 s) = Some (JObj m) -> exists root gs, body_described w junk m root gs) /\
  (describes_other x s t -> is_xml t = false -> json_of_bytes x (utf8 s) <> None).
Lemma process_ok : forall s given hint st, (forall t, type_chosen x s given hint t -> text_fine s t) -> exists r, process_body w x junk print_xml s given hint st = Ok r.
Proof.
  intros s given hint st F. specialize (F _ (chosen x s given hint)). unfold process_body. destruct s as [|c0 s0]; [eauto|]. set (s := c0 :: s0) in *. cbv zeta.
  set (t := match given with Some c => c | None => match hint with Some c => c | None => detect_text x s end end) in *. clearbody t. destruct F as (NP & FX & FF).
  destruct (is_json t) eqn:J.
  - assert (exists r, process_json w x junk s st = Ok r) as [r ->]; [|cbn [bind]; eauto]. unfold process_json. destruct (json_of_bytes x (utf8 s)) as [v|] eqn:V; [|eauto].
    specialize (NP v eq_refl).
    assert (exists r, bind (process_json_value w junk v st) (fun r => @Ok _ unit (json_show w (fst r), snd r)) = Ok r) as [r R].
    { destruct (C75_outcome w junk v st) as [(v' & st' & ->)|[_ P]]; [cbn [bind]; eauto | exfalso; apply NP; exact P]. }
    destruct v; eauto.
  - destruct (is_xml t) eqn:X.
    + destruct (is_json (detect_text x s)) eqn:D; [|eauto].
      assert (exists r, process_xml w x junk print_xml s st = Ok r) as [r ->]; [|cbn [bind]; eauto]. unfold process_xml.
      destruct (json_of_bytes x (utf8 s)) as [v|] eqn:V; [|eauto]. destruct v as [| | | | |m]; eauto.
      destruct (FX (conj J (conj D (or_introl X))) eq_refl m eq_refl) as (root & gs & B).
      destruct (C110_every_description w junk m root gs B (NP _ eq_refl) st) as (st' & -> & _). cbn [bind]. eauto.
    + destruct (is_form_urlencoded t) eqn:U; [|eauto]. destruct (is_json (detect_text x s)) eqn:D; [|eauto].
      assert (exists r, process_form w junk (json_of_bytes x (utf8 s)) st = Ok r) as [r ->]; [|cbn [bind]; eauto].
      destruct (C109_outcome w junk (json_of_bytes x (utf8 s)) st) as [(text & st' & ->)|[_ [N|(v & ty & m & V & P)]]]; [eauto | | ].
      * exfalso. exact (FF (conj J (conj D (or_intror U))) eq_refl N).
      * exfalso. apply (NP v V). exists ty, m. exact P.
Qed.
Lemma type_ok : forall b h, headers_valued h -> exists o, calc_content_type w x b h = Ok o.
Proof.
  intros b h V. unfold calc_content_type. destruct (body_content_type b); [eauto|]. destruct h as [m|]; cbn [bind]; [|eauto].
  specialize (V m eq_refl). destruct (find_header w m (S_ "content-type")) as [[|]|]; cbn [bind]; eauto. contradiction.
Qed.
Definition side_valued (s : Handles.side) (i : fint) : Prop :=
  match i, s with
  | FIHttp q _, Handles.Request => headers_valued (fp_headers q)
  | FIHttp _ p, Handles.Response => headers_valued (fp_headers p)
  | _, _ => True
  end.
(** A call succeeds if the type can be read, the type's header has a value and the text can be read for whatever type. *)
Theorem C115_succeeds : forall started s ct text i, (forall t, ct = Some t -> parse_mime x t <> None) -> side_valued s i ->
  (forall t v, text = Some v -> text_fine v t) -> exists i', with_body w x junk print_xml started s ct text i = Ok (i', negb started).
Proof.
  intros started s ct text i T V F. unfold with_body.
  assert (exists given, given_type x ct = Ok given) as [given ->].
  { destruct ct as [t|]; cbn [given_type]; [|eauto]. specialize (T t eq_refl). destruct (parse_mime x t); [eauto | contradiction]. }
  cbn [bind]. set (v := match text with Some t => t | None => [] end).
  assert (forall hint st, exists r, process_body w x junk print_xml v given hint st = Ok r) as P.
  { intros hint st. destruct text as [t|]; cbn in v; [|subst v; cbn; eauto]. apply process_ok. intros ty _. exact (F ty t eq_refl). }
  assert (forall p, headers_valued (fp_headers p) -> exists p', part_with_text w x junk print_xml v given p = Ok p') as PP.
  { intros p HV. unfold part_with_text. destruct (type_ok (fp_body p) _ HV) as [hint ->]. cbn [bind]. destruct (P hint (mkStore (fp_rules p) (fp_gens p))) as [[b st'] ->]. cbn [bind fst snd].
    destruct (type_ok b _ HV) as [c ->]. cbn [bind]. eauto. }
  assert (forall m, exists m', msg_with_text w x junk print_xml v given m = Ok m') as PM.
  { intros m. unfold msg_with_text. destruct (P None (mkStore (fm_rules m) (fm_gens m))) as [[b st'] ->]. cbn [bind fst snd].
    destruct (type_ok b (metadata_to_headers w (fm_meta m))) as [c ->]; [|cbn [bind]; eauto].
    intros h E. unfold metadata_to_headers in E. destruct (obj_get _ _) as [u|]; [|discriminate]. injection E as <-. unfold find_header. cbn [find fst snd].
    destruct (str_eqb _ _); discriminate. }
  destruct i as [q p|m|q l], s; cbn [on_side side_valued] in *.
  - destruct (PP q V) as [? ->]. cbn [bind]. eauto.
  - destruct (PP p V) as [? ->]. cbn [bind]. eauto.
  - destruct (PM m) as [? ->]. cbn [bind]. eauto.
  - destruct (PM m) as [? ->]. cbn [bind]. eauto.
  - destruct (PM q) as [? ->]. cbn [bind]. eauto.
  - destruct (PM fmsg_default) as [? ->]. cbn [bind]. eauto.
Qed.
(** A content type that cannot be read makes the call panic, whatever the rest. *)
Theorem C115_unreadable_type : forall started s t text i, parse_mime x t = None -> with_body w x junk print_xml started s (Some t) text i = Panic.
Proof. intros started s t text i H. unfold with_body, given_type. rewrite H. reflexivity. Qed.
(** A call never returns by an error of its own: it does its work or it panics. *)
Theorem C115_never_errs : forall started s ct text i e, with_body w x junk print_xml started s ct text i <> Err e.
Proof.
  assert (PB : forall s given hint st e, process_body w x junk print_xml s given hint st <> Err e).
  { intros s given hint st e. unfold process_body. destruct s as [|c0 s0]; [discriminate|]. set (s := c0 :: s0) in *. cbv zeta.
    set (t := match given with Some c => c | None => match hint with Some c => c | None => detect_text x s end end) in *.
    destruct (is_json t).
    - destruct (process_json w x junk s st) as [r|e'|] eqn:P; cbn [bind]; try discriminate. exfalso. unfold process_json in P.
      destruct (json_of_bytes x (utf8 s)) as [v|]; [|discriminate].
      assert (bind (process_json_value w junk v st) (fun r => @Ok _ unit (json_show w (fst r), snd r)) <> Err e') as Q.
      { destruct (C75_outcome w junk v st) as [(v' & st' & ->)|[-> _]]; cbn [bind]; discriminate. }
      destruct v; try discriminate; exact (Q P).
    - destruct (is_xml t).
      + destruct (is_json (detect_text x s)); [|discriminate].
        destruct (process_xml w x junk print_xml s st) as [r|e'|] eqn:P; cbn [bind]; try discriminate. exfalso. unfold process_xml in P.
        destruct (json_of_bytes x (utf8 s)) as [v|]; [|discriminate]. destruct v as [| | | | |m]; try discriminate.
        destruct (proj2 (proj2 (C110_what_is_refused w junk m st))) as [Q|(root & st' & Q)]; rewrite Q in P; discriminate.
      + destruct (is_form_urlencoded t); [|discriminate]. destruct (is_json (detect_text x s)); [|discriminate].
        destruct (C109_outcome w junk (json_of_bytes x (utf8 s)) st) as [(text & st' & ->)|[-> _]]; cbn [bind]; discriminate. }
  assert (CT : forall b h e, calc_content_type w x b h <> Err e).
  { intros b h e. unfold calc_content_type. destruct (body_content_type b); [discriminate|]. destruct h as [m|]; cbn [bind]; [|discriminate].
    destruct (find_header w m _) as [[|]|]; cbn [bind]; discriminate. }
  assert (PP : forall s given p e, part_with_text w x junk print_xml s given p <> Err e).
  { intros s given p e. unfold part_with_text. destruct (calc_content_type w x (fp_body p) (fp_headers p)) as [hint|e'|] eqn:C1; cbn [bind]; [|exfalso; exact (CT _ _ _ C1) | discriminate].
    destruct (process_body _ _ _ _ _ _ _ _) as [[b st']|e'|] eqn:P; cbn [bind fst snd]; [|exfalso; exact (PB _ _ _ _ _ P) | discriminate].
    destruct (calc_content_type w x b (fp_headers p)) as [c|e'|] eqn:C2; cbn [bind]; [discriminate | exfalso; exact (CT _ _ _ C2) | discriminate]. }
  assert (PM : forall s given m e, msg_with_text w x junk print_xml s given m <> Err e).
  { intros s given m e. unfold msg_with_text.
    destruct (process_body _ _ _ _ _ _ _ _) as [[b st']|e'|] eqn:P; cbn [bind fst snd]; [|exfalso; exact (PB _ _ _ _ _ P) | discriminate].
    destruct (calc_content_type w x b _) as [c|e'|] eqn:C2; cbn [bind]; [discriminate | exfalso; exact (CT _ _ _ C2) | discriminate]. }
  intros started s ct text i e H. unfold with_body in H.
  destruct (given_type x ct) as [given|e'|] eqn:G; cbn [bind] in H; [| |discriminate].
  2:{ destruct ct; cbn [given_type] in G; [destruct (parse_mime x s0)|]; discriminate. }
  destruct (on_side _ _ _ _) as [i'|e'|] eqn:P; cbn [bind] in H; try discriminate. clear H. unfold on_side in P.
  destruct i as [q p|m|q l], s; match type of P with bind ?o _ = _ => destruct o eqn:R; cbn [bind] in P; try discriminate end;
    first [exact (PP _ _ _ _ R) | exact (PM _ _ _ _ R)].
Qed.
(** JSON without markers: the body is the document as the library prints it, and no rule or generator is added. *)
Theorem C115_plain_json : forall s t r g v bytes r' g', json_of_bytes x (utf8 s) = Some v -> container v -> unmarked v -> is_json t = true ->
  text_becomes w x junk print_xml s t r g bytes r' g' ->
  bytes = utf8 (json_show w v) /\ (forall p, hm_get p (cat_rules r') = hm_get p (cat_rules r)) /\ (forall c p, generator_at c g' p = generator_at c g p).
Proof.
  intros s t r g v bytes r' g' V C U J H.
  destruct H as [J' _|_ H|v0 v' occs r' g' _ V' _ RD RA GA GO|m root gs r' g' (J' & _) _ _ _ _ _ _|(J' & _) _ _|v0 text r' g' (J' & _) _ _ _]; try congruence.
  - exfalso. exact (H v V C).
  - rewrite V in V'. injection V' as <-. apply (C75_plain_documents w junk v U) in RD as [-> ->]. split; [reflexivity|]. split.
    + intro p. rewrite (proj2 RA p). cbn [rules_for flat_map]. destruct (hm_get p (cat_rules r)) as [[rs lg cs]|]; [|reflexivity]. cbn [rl_rules rl_logic rl_cascaded]. rewrite app_nil_r. reflexivity.
    + intros c p. destruct (gcat_eqb c GcBody) eqn:E; [apply gcat_eqb_eq in E; subst c|].
      * rewrite (GA p). reflexivity.
      * apply GO. intros ->. discriminate.
Qed.
End Texts.

(** ** Bytes *)
Section Bytes.
Variable w : world.
Variable x : externals.

Lemma bytes_body_given : forall b ct, bytes_given b ct (bytes_body b ct).
Proof.
  intros [[|n l]|] ct; cbn [bytes_body]; (split; [|split]); try (intros; discriminate); try reflexivity.
  - intros l E NE. injection E as <-. contradiction.
  - intros l' E NE. injection E as <-. reflexivity.
Qed.
Lemma rule_pushed : forall r p c, rule_added r p c (x_add_rule c p r And).
Proof.
  intros t p c. split; [reflexivity|]. split; cbn [x_add_rule cat_rules].
  - intros q NE. rewrite xhm_push_get. apply path_eqb_false in NE. rewrite NE. reflexivity.
  - rewrite xhm_push_get. replace (path_eqb p p) with true by (symmetry; apply path_eqb_expr; reflexivity). reflexivity.
Qed.
Lemma find_type : forall m, (exists v, find_header w m type_header = Some v) <-> has_header w (Some m) "content-type".
Proof.
  intro m. unfold find_header. split.
  - intros [v F]. destruct (find _ m) as [[k u]|] eqn:E; [|discriminate]. apply find_some in E as [I E]. apply str_eqb_eq in E. exists m, k, u. split; [reflexivity|]. split; [exact I|]. exact E.
  - intros (m' & k & v & E & I & L). injection E as <-. destruct (find _ m) as [[k' u]|] eqn:F; [eauto|]. exfalso.
    apply (find_none _ _ F) in I. cbn [fst] in I. rewrite L in I. replace (str_eqb (to_lower w (S_ "content-type")) (to_lower w type_header)) with true in I by reflexivity. discriminate.
Qed.
Lemma type_rule_pushed : forall t p c, type_rule_added t p c (x_add_rule c p (XRule (RContentType t)) And).
Proof. intros. apply rule_pushed. Qed.
Lemma missing : forall h t,
  (has_header w h "content-type" -> header_if_missing w h t = h) /\
  (~ has_header w h "content-type" ->
     (forall k, k <> S_ "Content-Type" -> entry k (headers_of (header_if_missing w h t)) = entry k (headers_of h)) /\
     entry (S_ "Content-Type") (headers_of (header_if_missing w h t)) = Some [t]).
Proof.
  intros [m|] t; cbn [header_if_missing].
  - pose proof (find_type m) as F. destruct (find_header w m type_header) as [v|]; split; intro H; try reflexivity.
    + exfalso. apply H, F. eauto.
    + apply F in H as [v H]. discriminate.
    + cbn [headers_of]. split; [intros k NE|]; rewrite !entry_get, map_put_get; [|unfold type_header; rewrite str_eqb_refl; reflexivity].
      destruct (str_eqb_spec k type_header) as [E|_]; [contradiction | reflexivity].
  - split; intro H; [destruct H as (m & k & v & E & _); discriminate|]. cbn [headers_of]. split; [|reflexivity].
    intros k NE. rewrite !entry_get. cbn [obj_get]. destruct (str_eqb_spec k type_header) as [E|_]; [contradiction | reflexivity].
Qed.
Lemma part_bytes : forall b t typed rule p, bytes_set w b t typed (rule = true) p (part_with_bytes w b t typed rule p).
Proof.
  intros b t typed rule p. unfold bytes_set, part_with_bytes. cbn [fp_body fp_header_rules fp_gens fp_rules fp_headers]. destruct (missing (fp_headers p) t) as [M1 M2].
  split; [apply bytes_body_given|]. split; [reflexivity|]. split; [reflexivity|]. split; [intros ->; apply type_rule_pushed|]. split; [|split; assumption].
  intro NR. destruct rule; [contradiction NR; reflexivity | reflexivity].
Qed.
Lemma message_bytes : forall b t typed rule m, message_bytes_set b t typed (rule = true) m (msg_with_bytes b t typed rule m).
Proof.
  intros b t typed rule m. unfold message_bytes_set, msg_with_bytes. cbn [fm_body fm_gens fm_rules fm_meta].
  split; [apply bytes_body_given|]. split; [reflexivity|]. split; [intros ->; apply type_rule_pushed|]. split; [|split].
  - intro NR. destruct rule; [contradiction NR; reflexivity | reflexivity].
  - intros k NE. rewrite !entry_get, map_put_get. destruct (str_eqb_spec k (S_ "contentType")) as [E|_]; [contradiction | reflexivity].
  - rewrite entry_get, map_put_get, str_eqb_refl. reflexivity.
Qed.
Lemma bytes_side : forall (R1 : fpart -> fpart -> Prop) (R2 : fmsg -> fmsg -> Prop) f g s i, (forall p, R1 p (f p)) -> (forall m, R2 m (g m)) ->
  exists i', on_side s (fun p => Ok (f p)) (fun m => Ok (g m)) i = Ok i' /\ one_side R1 R2 s i i'.
Proof. intros R1 R2 f g [|] [q p|m|q l] F G; eexists; (split; [reflexivity|]); constructor; auto. Qed.
(** Without a type it is application/octet-stream. A type that cannot be read is used as it is, without a type for the body. *)
Theorem C115_binary_body : forall started s ct b i,
  let t := match ct with Some t => t | None => S_ "application/octet-stream" end in
  exists i', with_binary_body w x started s ct b i = Ok (i', match i with FIHttp _ _ => negb started | _ => true end) /\
    one_side (bytes_set w b t (parse_mime x t) False) (message_bytes_set b t (parse_mime x t) False) s i i'.
Proof.
  intros started s ct b i t. unfold with_binary_body. fold t.
  destruct (bytes_side (bytes_set w b t (parse_mime x t) False) (message_bytes_set b t (parse_mime x t) False)
    (part_with_bytes w b t (parse_mime x t) false) (msg_with_bytes b t (parse_mime x t) false) s i) as (i' & -> & OS).
  - intro p. destruct (part_bytes b t (parse_mime x t) false p) as (A1 & A2 & A3 & _ & A5 & A6). split; [exact A1|]. split; [exact A2|]. split; [exact A3|]. split; [intros []|]. split; [|exact A6]. intros _. apply A5. discriminate.
  - intro m. destruct (message_bytes b t (parse_mime x t) false m) as (A1 & A2 & _ & A5 & A6). split; [exact A1|]. split; [exact A2|]. split; [intros []|]. split; [|exact A6]. intros _. apply A5. discriminate.
  - cbn [bind]. exists i'. split; [destruct i; reflexivity | exact OS].
Qed.
(** A file: from V3 on a rule on the type of the body is added; the body itself has no type. *)
Theorem C115_binary_file : forall started spec s ct b i,
  (ct = None -> with_binary_file w started spec s ct b i = Ok (i, false)) /\
  (forall t, ct = Some t -> exists i', with_binary_file w started spec s ct b i = Ok (i', match i with FIHttp _ _ => negb started | _ => true end) /\
     one_side (bytes_set w b t None (3 <= spec)) (message_bytes_set b t None (3 <= spec)) s i i').
Proof.
  intros started spec s ct b i. split; [intros ->; reflexivity|]. intros t ->. unfold with_binary_file.
  assert (R : 3 <=? spec = true <-> 3 <= spec) by apply N.leb_le.
  destruct (bytes_side (bytes_set w b t None (3 <= spec)) (message_bytes_set b t None (3 <= spec))
    (part_with_bytes w b t None (3 <=? spec)) (msg_with_bytes b t None (3 <=? spec)) s i) as (i' & -> & OS).
  - intro p. destruct (part_bytes b t None (3 <=? spec) p) as (A1 & A2 & A3 & A4 & A5 & A6). split; [exact A1|]. split; [exact A2|]. split; [exact A3|]. rewrite <- R. split; [exact A4|]. split; [exact A5 | exact A6].
  - intro m. destruct (message_bytes b t None (3 <=? spec) m) as (A1 & A2 & A4 & A5 & A6). split; [exact A1|]. split; [exact A2|]. rewrite <- R. split; [exact A4|]. split; [exact A5 | exact A6].
  - cbn [bind]. exists i'. split; [destruct i; reflexivity | exact OS].
Qed.
End Bytes.
