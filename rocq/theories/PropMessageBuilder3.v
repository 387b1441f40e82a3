(** C112: synchronous messages described with the consumer DSL. *)
From Coq Require Import Ascii String List Arith NArith ZArith Lia Bool Permutation Sorted.
From Verif Require Import Base PathExp PathExpProofs SpecPath PropPath Json Text TextProofs MatchingRules RulesV2 SpecRules RulesProofs Matchers JsonCompare SpecMatch SpecValues
  CompareProofs CompareProofs2 SpecBody BodyProofs Headers Query ContentType SpecXml SpecQuery SpecHeaders SpecHttp Http QueryProofs PropHttp PropHttp2 PropHeaders Pattern SpecPattern PatternProofs PropPattern PropPattern2
  SpecParams PropParams PropParams2 PropXml Expr Generators SpecGenerators PropGenerators Builder SpecBuilder BuilderProofs BuilderProofs2 BuilderProofs3 BuilderProofs4 PropBuilder PropBuilder2
  Merge PactFile OldFile MessageBuilder PropMessage SpecMessageBuilder PropMessageBuilder PropMessageBuilder2.
Import ListNotations.
Open Scope N_scope.
Local Opaque show_N.

Section Built.
Variable w : world.
Variable x : externals.
Notation sp := (is_space w).
Notation json_ct := (content_type_of x (S_ "application/json")).

(** ** From calls to contents *)
Definition contents_of_response (r : response_said) : contents_b :=
  match r with
  | RSJson p => response_of_json w x p
  | RSBytes b ct => response_of_bytes x b ct
  | RSContents m g => response_of_contents m g
  | RSBody b => bare_response b
  end.
Lemma typed_same : forall t j, typed_body w x t j = body_typed w x t j.
Proof. intros [t|] j; reflexivity. Qed.
Lemma given_sync : forall j r, contents_from_sync w x j = Ok r ->
  request_given w x j = (match fst r with Some b => [b] | None => [] end) /\ responses_given w x j = snd r.
Proof.
  intros j r H. unfold contents_from_sync in H. unfold request_given, responses_given, type_said. rewrite !entry_get. change (fields_said j) with (fields_of j).
  assert (exists t, (match obj_get (S_ "pact:content-type") (fields_of j) with
    | Some v => option_map Some (parse_mime x (json_to_string w v)) | None => Some None end) = Some t /\
    r = (option_map (typed_body w x t) (obj_get (S_ "request") (fields_of j)),
        match obj_get (S_ "response") (fields_of j) with
        | Some (JArr l) => map (typed_body w x t) l
        | Some v => [typed_body w x t v]
        | None => []
        end)) as (t & -> & ->).
  { destruct (obj_get (S_ "pact:content-type") (fields_of j)) as [v|].
    - destruct (parse_mime x (json_to_string w v)) as [t|]; [|discriminate]. cbn [bind] in H. injection H as <-. exists (Some t). split; reflexivity.
    - cbn [bind] in H. injection H as <-. exists None. split; reflexivity. }
  clear H. cbn [fst snd]. rewrite (entry_get _ (S_ "request") (fields_of j)), (entry_get _ (S_ "response") (fields_of j)). split.
  - destruct (obj_get (S_ "request") (fields_of j)); cbn [option_map]; [rewrite typed_same|]; reflexivity.
  - destruct (obj_get (S_ "response") (fields_of j)) as [[]|]; rewrite ?typed_same; try reflexivity. apply map_ext. intro. symmetry. apply typed_same.
Qed.
Lemma sync_state_after : forall h s s', sync_steps w x s h = Ok s' ->
  fst s' = fold_left about_step (sync_abouts h) (fst s) /\
  fst (snd s') = fold_left (contents_step w x) (request_parts w x h) (fst (snd s)) /\
  snd (snd s') = snd (snd s) ++ map contents_of_response (responses_said w x h).
Proof.
  intro h. induction h as [|c h IH]; intros s s' H; cbn [sync_steps] in H; [injection H as <-; rewrite app_nil_r; repeat (apply conj); reflexivity|].
  unfold sync_abouts, request_parts, responses_said. cbn [flat_map].
  destruct c as [c|k v|j|p|b ct|m g|p|b ct|m g]; cbn [sync_step bind] in H;
    try (apply IH in H as (-> & -> & ->); cbn [on_request add_responses fst snd]; rewrite <- ?app_assoc; repeat (apply conj); reflexivity).
  destruct (contents_from_sync w x j) as [r| |] eqn:E; try discriminate. cbn [bind] in H. apply given_sync in E as [-> ->].
  apply IH in H as (-> & -> & ->). rewrite map_app, map_map, app_assoc. cbn [add_responses fst snd contents_of_response].
  destruct (fst r) as [b|]; cbn [on_request fst snd map app]; repeat (apply conj); reflexivity.
Qed.
Lemma sync_total : forall h s, (forall j, In (SContentsFrom j) h -> type_readable w x j) -> exists s', sync_steps w x s h = Ok s'.
Proof.
  intro h. induction h as [|c h IH]; intros s R; [exists s; reflexivity|]. cbn [sync_steps].
  assert (exists s1, sync_step w x s c = Ok s1) as [s1 ->].
  { destruct c as [c|k v|j|p|b ct|m g|p|b ct|m g]; cbn [sync_step]; try (eexists; reflexivity).
    specialize (R j (or_introl eq_refl)). unfold contents_from_sync.
    destruct (obj_get (S_ "pact:content-type") (fields_of j)) as [v|] eqn:E; [|cbn [bind]; eexists; reflexivity].
    destruct j; try discriminate. cbn [fields_of] in E. unfold type_readable in R. specialize (R v). rewrite (entry_get _ (S_ "pact:content-type") m) in R. specialize (R E).
    destruct (parse_mime x (json_to_string w v)); [|congruence]. cbn [bind]. eexists. reflexivity. }
  cbn [bind]. apply IH. intros j J. apply R. right. exact J.
Qed.
Lemma readable_dec : forall j, type_readable w x j \/ ~ type_readable w x j.
Proof.
  intro j. unfold type_readable. destruct j; try (left; exact I). destruct (entry (S_ "pact:content-type") m) as [v|]; [|left; intros ? Z; discriminate].
  destruct (parse_mime x (json_to_string w v)) eqn:E; [left | right].
  - intros v0 Z. injection Z as <-. rewrite E. discriminate.
  - intro Z. exact (Z v eq_refl E).
Qed.
(** Describing a synchronous message panics only on a content type that cannot be read. *)
Theorem C112_sync_panics : forall d h, (exists i, build_sync w x d h = Ok i) \/ (exists j, In (SContentsFrom j) h /\ ~ type_readable w x j).
Proof.
  intros d h. unfold build_sync.
  assert ((forall j, In (SContentsFrom j) h -> type_readable w x j) \/ exists j, In (SContentsFrom j) h /\ ~ type_readable w x j) as [H|H].
  { clear d. induction h as [|c h IH]; [left; intros j []|]. destruct IH as [IH|(j & J & N)]; [|right; exists j; split; [right; exact J | exact N]].
    destruct c as [c|k v|j|p|b ct|m g|p|b ct|m g]; try (left; intros j0 [J|J]; [discriminate | exact (IH j0 J)]).
    destruct (readable_dec j) as [T|T].
    - left. intros j0 [J|J]; [injection J as <-; exact T | exact (IH j0 J)].
    - right. exists j. split; [left; reflexivity | exact T]. }
  - left. destruct (sync_total h (about_start, (contents_start, [])) H) as [s ->]. eexists. reflexivity.
  - right. exact H.
Qed.
Theorem C112_unreadable_type : forall d h j, In (MContentsFrom j) h -> ~ type_readable w x j -> build_async w x d h = Panic.
Proof.
  intros d h j J NR. unfold build_async. generalize (about_start, contents_start). intro s.
  assert (async_steps w x s h = Panic) as ->; [|reflexivity]. revert s. induction h as [|c h IH]; [destruct J|]. intro s. cbn [async_steps].
  destruct J as [->|J].
  - cbn [async_step]. unfold contents_from_async. destruct j; try (exfalso; apply NR; exact I). cbn [fields_of]. unfold type_readable in NR.
    rewrite entry_get in NR. destruct (obj_get (S_ "pact:content-type") m) as [v|]; [|exfalso; apply NR; intros ? Z; discriminate].
    destruct (parse_mime x (json_to_string w v)) eqn:E; [|reflexivity]. exfalso. apply NR. intros v0 Z. injection Z as <-. rewrite E. discriminate.
  - destruct (async_step w x s c) as [s1| |] eqn:E; cbn [bind]; [apply IH, J | | reflexivity].
    destruct c; cbn [async_step] in E; try discriminate. unfold contents_from_async in E. destruct (obj_get _ _); [destruct (parse_mime x _)|]; discriminate.
Qed.
Theorem C112_unreadable_sync_type : forall d h j, In (SContentsFrom j) h -> ~ type_readable w x j -> build_sync w x d h = Panic.
Proof.
  intros d h j J NR. unfold build_sync. generalize (about_start, (contents_start, @nil contents_b)). intro s.
  assert (sync_steps w x s h = Panic) as ->; [|reflexivity]. revert s. induction h as [|c h IH]; [destruct J|]. intro s. cbn [sync_steps].
  destruct J as [->|J].
  - cbn [sync_step]. unfold contents_from_sync. destruct j; try (exfalso; apply NR; exact I). cbn [fields_of]. unfold type_readable in NR.
    rewrite entry_get in NR. destruct (obj_get (S_ "pact:content-type") m) as [v|]; [|exfalso; apply NR; intros ? Z; discriminate].
    destruct (parse_mime x (json_to_string w v)) eqn:E; [|reflexivity]. exfalso. apply NR. intros v0 Z. injection Z as <-. rewrite E. discriminate.
  - destruct (sync_step w x s c) as [s1| |] eqn:E; cbn [bind]; [apply IH, J | | reflexivity].
    destruct c; cbn [sync_step] in E; try discriminate. unfold contents_from_sync in E. destruct (obj_get (S_ "pact:content-type") _); [destruct (parse_mime x _)|]; discriminate.
Qed.

(** ** What is built *)
Definition gens_of (c : contents_b) : generators := match cb_gens c with Some g => g | None => [] end.
Lemma sync_built : forall d h i, build_sync w x d h = Ok i ->
  let req := contents_after w x (request_parts w x h) in
  f_payload i = FSync (sync_message_of req, gens_of req) (map (fun r => (sync_message_of (contents_of_response r), gens_of req)) (responses_said w x h)).
Proof.
  intros d h i H. unfold build_sync in H. destruct (sync_steps w x (about_start, (contents_start, [])) h) as [s| |] eqn:E; try discriminate.
  cbn [bind] in H. injection H as <-. apply sync_state_after in E as (E1 & E2 & E3). cbn [fst snd app] in *. cbn [f_payload]. rewrite E2, E3, map_map. reflexivity.
Qed.
Definition bytes_metadata (ct : option str) (k : str) : option json := if str_eqb k (S_ " contentType") then option_map JStr ct else None.
(** A response as it is described. The metadata of a response given as bytes has the key " contentType", with a space. *)
Definition response_as (r : response_said) (m : message) : Prop :=
  msg_contents m = match r with
    | RSJson p => BPresent (utf8 (json_show w (to_example p))) (Some json_ct) None
    | RSBytes b ct => BPresent b (option_map (content_type_of x) ct) None
    | RSContents m _ => msg_contents m
    | RSBody b => b
    end /\
  forall k, entry k (msg_metadata m) = match r with
    | RSJson _ | RSBody _ => None
    | RSBytes _ ct => if str_eqb k (S_ " contentType") then option_map JStr ct else None
    | RSContents m _ => entry k (msg_metadata m)
    end.
Theorem C112_sync_described : forall d h i, build_sync w x d h = Ok i ->
  (forall m g, In (SRequestContents m g) h -> NoDup (keys (msg_metadata m))) ->
  described d (sync_abouts h) i /\ x_transport (f_extra i) = None /\
  exists q g rs, f_payload i = FSync (q, g) rs /\
    msg_contents q = last (flat_map (body_said w x) (request_parts w x h)) BMissing /\
    (forall k, entry k (msg_metadata q) = metadata_said (request_parts w x h) k) /\
    (whole_contents (request_parts w x h) = [] -> g = []) /\
    Forall2 (fun r m => response_as r (fst m) /\ snd m = g) (responses_said w x h) rs.
Proof.
  intros d h i H ON. pose proof (sync_built d h i H) as F. cbv zeta in F.
  unfold build_sync in H. destruct (sync_steps w x (about_start, (contents_start, [])) h) as [s| |] eqn:E; try discriminate.
  cbn [bind] in H. apply sync_state_after in E as (E1 & E2 & E3). cbn [fst snd app] in *.
  destruct (about_after (sync_abouts h)) as (H1 & H2 & H3 & H4 & H5 & H6 & H7). cbv zeta in *.
  split; [|split].
  - injection H as <-. unfold described. cbn [f_id f_desc f_key f_states f_extra about_extra x_pending x_comments]. rewrite E1, H1, H2, H3, H4, H5. repeat (apply conj); reflexivity.
  - injection H as <-. reflexivity.
  - eexists _, _, _. split; [exact F|]. clear F H. cbn [sync_message_of msg_contents msg_metadata]. split; [apply body_after_calls|]. split; [|split].
    + intro k. rewrite entry_get. apply metadata_after. intros m g J. unfold request_parts in J. apply in_flat_map in J as (c & K & J).
      destruct c; cbn in J; try contradiction; try (destruct J as [J|[]]; try discriminate).
      * apply in_map_iff in J as (? & J & _). discriminate.
      * injection J as -> ->. exact (ON m g K).
    + intro WC. destruct (rules_after w x _ WC) as (_ & _ & G). unfold gens_of. rewrite G. reflexivity.
    + generalize (responses_said w x h). intro l. induction l as [|r l IH]; [constructor|]. cbn [map]. constructor; [|exact IH]. split; [|reflexivity]. clear.
      destruct r as [p|b ct|m g|b]; split; cbn [contents_of_response sync_message_of response_of_json response_of_bytes response_of_contents bare_response cb_body cb_meta meta_list msg_contents msg_metadata fst];
        try reflexivity.
      intro k. destruct ct as [t|]; rewrite entry_get; cbn [obj_get option_map].
      * destruct (str_eqb k (S_ " contentType")); reflexivity.
      * destruct (str_eqb k (S_ " contentType")); reflexivity.
Qed.
(** Generators given with the contents of a response are not used: they are those of the request. *)
Theorem C112_response_generators_lost : forall d h i q g rs, build_sync w x d h = Ok i -> f_payload i = FSync (q, g) rs ->
  (forall m g', ~ In (SRequestContents m g') h) -> forall r, In r rs -> snd r = [].
Proof.
  intros d h i q g rs H F NC r J. pose proof (sync_built d h i H) as F'. cbv zeta in F'. rewrite F in F'. injection F' as _ _ ->.
  apply in_map_iff in J as (r0 & <- & _). cbn [snd]. unfold gens_of.
  assert (whole_contents (request_parts w x h) = []) as WC.
  { destruct (whole_contents (request_parts w x h)) as [|m ms] eqn:Z; [reflexivity|]. exfalso.
    assert (In m (whole_contents (request_parts w x h))) as J by (rewrite Z; left; reflexivity). unfold whole_contents in J. apply in_flat_map in J as (c & K & J).
    destruct c; try contradiction. destruct J as [->|[]]. apply suffix_since in K. unfold request_parts in K. apply in_flat_map in K as (c & K1 & K2).
    destruct c; cbn in K2; try contradiction; try (destruct K2 as [K2|[]]; try discriminate).
    - apply in_map_iff in K2 as (? & K2 & _). discriminate.
    - injection K2 as -> ->. exact (NC m g0 K1). }
  destruct (rules_after w x _ WC) as (_ & _ & ->). reflexivity.
Qed.

(** ** What is accepted *)
Lemma two_categories : forall c e, shuffled (sync_rules c) e ->
  (forall k, cat_add_rules (cat_empty CBody) (cat_or CBody (cb_rules c)) = k -> Permutation (cat_rules k) (cat_rules (rules_for CBody e)) /\ cat_name (rules_for CBody e) = cat_name k) /\
  (cb_meta_rules c = None -> cat_rules (rules_for CMetadata e) = []).
Proof.
  intros c e S. split.
  - intros k <-. destruct (shuffled_content _ _ CBody S) as [P N]. unfold content, sync_rules in P, N. cbn [with_category cat_eqb rules_for] in P, N. split; [exact P | symmetry; exact N].
  - intro Z. destruct (shuffled_content _ _ CMetadata S) as [P _]. unfold content, sync_rules in P. rewrite Z in P. cbn in P. apply Permutation_nil, P.
Qed.
(** A request with a JSON pattern as its body. *)
Theorem C112_sync_request_json : forall d h i b g rs e a ms p ab act ah ja, build_sync w x d h = Ok i -> f_payload i = FSync (b, g) rs -> same_message b e ->
  pattern_given w x p (request_parts w x h) -> (forall m g, In (SRequestContents m g) h -> NoDup (keys (msg_metadata m))) ->
  proper p -> untied p -> (depth p <= 57)%nat ->
  json_type json_ct -> json_of_bytes x (utf8 (json_show w (to_example p))) = Some (to_example p) ->
  msg_contents a = BPresent ab act ah -> Http.message_content_type w x a = json_ct -> json_of_bytes x ab = Some ja -> json_wf ja -> fits ja ->
  readable_metadata sp (msg_metadata e) -> readable_metadata sp (msg_metadata a) ->
  match_message w x e a = Ok ms ->
  (ms = [] <-> means w true false p ja /\ metadata_accepted w (metadata_said (request_parts w x h)) (msg_metadata a)).
Proof.
  intros d h i b g rs e a ms p ab act ah ja B F (E1 & E2 & E3) (G1 & G2 & l1 & l2 & G3 & G4) ON Pr Un De JT Je Ba CT Ja Wa Fa RE RA M.
  pose proof (C112_sync_described d h i B ON) as (_ & _ & q0 & g0 & rs0 & F0 & Q1 & Q2 & _). rewrite F in F0. injection F0 as <- <- <-.
  pose proof (sync_built d h i B) as F'. cbv zeta in F'. rewrite F in F'. injection F' as Eb _ _. set (l := request_parts w x h) in *.
  destruct (rules_after w x l G2) as (R1 & R2 & _). rewrite G1 in R1. cbn [fold_left] in R1.
  rewrite Eb in E3. cbn [sync_message_of msg_rules] in E3. destruct (two_categories _ _ E3) as [TB TM]. destruct (TB _ eq_refl) as [P NM].
  rewrite R1, (one_pattern p Pr) in P, NM. cbn [cat_rules cat_name] in P, NM.
  apply (json_message_iff w x p e a ms ab act ah ja); try assumption.
  - rewrite E1, Q1, (since_bodies w x l _ _ _ G3 G4); [reflexivity | discriminate].
  - left. exact NM.
  - exact (TM R2).
  - rewrite E2, Eb. cbn [sync_message_of msg_metadata]. apply metadata_after. intros m g1 J. unfold l, request_parts in J. apply in_flat_map in J as (c & K & J).
    destruct c; cbn in J; try contradiction; try (destruct J as [J|[]]; try discriminate).
    + apply in_map_iff in J as (? & J & _). discriminate.
    + injection J as -> ->. exact (ON m g1 K).
  - intro k. rewrite E2. apply Q2.
Qed.
(** A request with bytes as its body. *)
Theorem C112_sync_request_bytes : forall d h i b g rs e a ms eb ect eh ab act ah, build_sync w x d h = Ok i -> f_payload i = FSync (b, g) rs -> same_message b e ->
  bytes_given (request_parts w x h) -> (forall m g, In (SRequestContents m g) h -> NoDup (keys (msg_metadata m))) ->
  last (flat_map (body_said w x) (request_parts w x h)) BMissing = BPresent eb ect eh ->
  msg_contents a = BPresent ab act ah -> other_type x (Http.message_content_type w x e) -> Http.message_content_type w x a = Http.message_content_type w x e ->
  readable_metadata sp (msg_metadata e) -> readable_metadata sp (msg_metadata a) ->
  match_message w x e a = Ok ms ->
  (ms = [] <-> ab = eb /\ metadata_accepted w (metadata_said (request_parts w x h)) (msg_metadata a)).
Proof.
  intros d h i b g rs e a ms eb ect eh ab act ah B F (E1 & E2 & E3) (G1 & G2) ON LB Ba OT CT RE RA M.
  pose proof (C112_sync_described d h i B ON) as (_ & _ & q0 & g0 & rs0 & F0 & Q1 & Q2 & _). rewrite F in F0. injection F0 as <- <- <-.
  pose proof (sync_built d h i B) as F'. cbv zeta in F'. rewrite F in F'. injection F' as Eb _ _. set (l := request_parts w x h) in *.
  destruct (rules_after w x l G2) as (R1 & R2 & _). rewrite G1 in R1. cbn [fold_left] in R1.
  rewrite Eb in E3. cbn [sync_message_of msg_rules] in E3. destruct (two_categories _ _ E3) as [TB TM]. destruct (TB _ eq_refl) as [P NM].
  rewrite R1 in P. apply Permutation_nil in P.
  apply (bytes_message_iff w x e a ms eb ect eh ab act ah); try assumption.
  - rewrite E1, Q1. exact LB.
  - exact (TM R2).
  - rewrite E2, Eb. cbn [sync_message_of msg_metadata]. apply metadata_after. intros m g1 J. unfold l, request_parts in J. apply in_flat_map in J as (c & K & J).
    destruct c; cbn in J; try contradiction; try (destruct J as [J|[]]; try discriminate).
    + apply in_map_iff in J as (? & J & _). discriminate.
    + injection J as -> ->. exact (ON m g1 K).
  - intro k. rewrite E2. apply Q2.
Qed.
(** The responses: in order, one description for every response. *)
Lemma response_is : forall d h i q g rs n r m, build_sync w x d h = Ok i -> f_payload i = FSync (q, g) rs ->
  nth_error (responses_said w x h) n = Some r -> nth_error rs n = Some m -> fst m = sync_message_of (contents_of_response r).
Proof.
  intros d h i q g rs n r m B F N1 N2. pose proof (sync_built d h i B) as F'. cbv zeta in F'. rewrite F in F'. injection F' as _ _ ->.
  rewrite nth_error_map, N1 in N2. injection N2 as <-. reflexivity.
Qed.
Theorem C112_sync_response_json : forall d h i q g rs n p b e a ms ab act ah ja, build_sync w x d h = Ok i -> f_payload i = FSync (q, g) rs ->
  nth_error (responses_said w x h) n = Some (RSJson p) -> nth_error rs n = Some b -> same_message (fst b) e ->
  proper p -> untied p -> (depth p <= 57)%nat ->
  json_type json_ct -> json_of_bytes x (utf8 (json_show w (to_example p))) = Some (to_example p) ->
  msg_contents a = BPresent ab act ah -> Http.message_content_type w x a = json_ct -> json_of_bytes x ab = Some ja -> json_wf ja -> fits ja ->
  readable_metadata sp (msg_metadata a) ->
  match_message w x e a = Ok ms ->
  (ms = [] <-> means w true false p ja).
Proof.
  intros d h i q g rs n p b e a ms ab act ah ja B F N1 N2 (E1 & E2 & E3) Pr Un De JT Je Ba CT Ja Wa Fa RA M.
  pose proof (response_is _ _ _ _ _ _ _ _ _ B F N1 N2) as Eb. rewrite Eb in E1, E2, E3. cbn [contents_of_response sync_message_of msg_contents msg_metadata msg_rules] in E1, E2, E3.
  destruct (two_categories _ _ E3) as [TB TM]. destruct (TB _ eq_refl) as [P NM].
  change (cat_or CBody (cb_rules (response_of_json w x p))) with (cat_or CBody (add_pattern None p)) in P, NM.
  rewrite (one_pattern p Pr) in P, NM. cbn [cat_rules cat_name] in P, NM. cbn [response_of_json cb_body cb_meta meta_list] in E1, E2.
  rewrite (json_message_iff w x p e a ms ab act ah ja (fun _ => None)); try assumption.
  - split; [intros [H _]; exact H | intro H; split; [exact H | intros k v Z; discriminate]].
  - left. exact NM.
  - exact (TM eq_refl).
  - rewrite E2. constructor.
  - intro k. rewrite E2. reflexivity.
  - rewrite E2. intros k v [].
Qed.
(** A response given as bytes: with a content type, only messages with the metadata " contentType" (with a space) are accepted. *)
Theorem C112_sync_response_bytes : forall d h i q g rs n eb ct b e a ms ab act ah, build_sync w x d h = Ok i -> f_payload i = FSync (q, g) rs ->
  nth_error (responses_said w x h) n = Some (RSBytes eb ct) -> nth_error rs n = Some b -> same_message (fst b) e ->
  msg_contents a = BPresent ab act ah -> other_type x (Http.message_content_type w x e) -> Http.message_content_type w x a = Http.message_content_type w x e ->
  readable_metadata sp (msg_metadata a) ->
  match_message w x e a = Ok ms ->
  (ms = [] <-> ab = eb /\ forall t, ct = Some t -> entry (S_ " contentType") (msg_metadata a) = Some (JStr t)).
Proof.
  intros d h i q g rs n eb ct b e a ms ab act ah B F N1 N2 (E1 & E2 & E3) Ba OT CT RA M.
  pose proof (response_is _ _ _ _ _ _ _ _ _ B F N1 N2) as Eb. rewrite Eb in E1, E2, E3. cbn [contents_of_response sync_message_of msg_contents msg_metadata msg_rules] in E1, E2, E3.
  destruct (two_categories _ _ E3) as [TB TM]. destruct (TB _ eq_refl) as [P NM]. cbn in P. apply Permutation_nil in P.
  cbn [response_of_bytes cb_body cb_meta meta_list] in E1, E2.
  rewrite (bytes_message_iff w x e a ms eb (option_map (content_type_of x) ct) None ab act ah (bytes_metadata ct)); try assumption.
  - assert (NK : ~ content_type_key (S_ " contentType")) by (intro Z; apply content_type_key_iff in Z; discriminate).
    assert (metadata_accepted w (bytes_metadata ct) (msg_metadata a) <-> (forall t, ct = Some t -> entry (S_ " contentType") (msg_metadata a) = Some (JStr t))) as ->; [|reflexivity].
    unfold metadata_accepted, bytes_metadata. split.
    + intros H t ->. destruct (H (S_ " contentType") (JStr t)) as (v & V1 & V2); [rewrite str_eqb_refl; reflexivity|].
      rewrite V1. destruct V2 as [[Z _]|[_ V2]]; [contradiction|]. destruct v; try discriminate. cbn [json_eqb] in V2. apply str_eqb_eq in V2. rewrite V2. reflexivity.
    + intros H k v Z. destruct (str_eqb_spec k (S_ " contentType")) as [->|]; [|discriminate]. destruct ct as [t|]; [|discriminate]. injection Z as <-.
      exists (JStr t). split; [apply H; reflexivity|]. right. split; [exact NK | apply json_eqb_refl; exact I].
  - exact (TM eq_refl).
  - rewrite E2. destruct ct; [|constructor]. constructor; [intros [] | constructor].
  - intro k. rewrite E2, entry_get. unfold bytes_metadata. destruct ct; cbn [obj_get option_map]; destruct (str_eqb k (S_ " contentType")); reflexivity.
  - rewrite E2. intros k v J Z. destruct ct; [|destruct J]. destruct J as [J|[]]. injection J as <- <-. apply content_type_key_iff in Z. discriminate.
Qed.
(** A response given as whole contents is matched as those contents. *)
Definition category_named (n : category_name) (m : matching_rules) : Prop :=
  forall c, In (n, c) m -> cat_name c = n /\ NoDup (path_texts (cat_rules c)).
Lemma find_rules : forall n m, rules_for n m = match find_category n m with Some c => c | None => cat_empty CBody end.
Proof. intros n m. induction m as [|[n' c] m IH]; [reflexivity|]. cbn [rules_for find_category]. destruct (cat_eqb n n'); [reflexivity | exact IH]. Qed.
Lemma find_in : forall n m c, find_category n m = Some c -> In (n, c) m.
Proof.
  intros n m c. induction m as [|[n' c'] m IH]; [discriminate|]. cbn [find_category]. destruct (cat_eqb n n') eqn:E.
  - intro Z. injection Z as ->. apply cat_eqb_true in E as ->. left. reflexivity.
  - intro Z. right. exact (IH Z).
Qed.
Lemma whole_category : forall n m, category_named n m -> cat_add_rules (cat_empty n) (cat_or n (find_category n m)) =
  match find_category n m with Some c => c | None => cat_empty n end.
Proof.
  intros n m H. destruct (find_category n m) as [c|] eqn:E; cbn [cat_or]; [|reflexivity].
  destruct (H c (find_in n m c E)) as [<- ND]. rewrite add_to_empty by exact ND. destruct c; reflexivity.
Qed.
Theorem C112_sync_response_contents : forall d h i q g rs n m g' b a, build_sync w x d h = Ok i -> f_payload i = FSync (q, g) rs ->
  nth_error (responses_said w x h) n = Some (RSContents m g') -> nth_error rs n = Some b ->
  category_named CBody (msg_rules m) -> category_named CMetadata (msg_rules m) ->
  match_message w x (fst b) a = match_message w x m a.
Proof.
  intros d h i q g rs n m g' b a B F N1 N2 K1 K2.
  pose proof (response_is _ _ _ _ _ _ _ _ _ B F N1 N2) as ->. cbn [contents_of_response].
  unfold match_message, ctx_for. cbn [sync_message_of msg_rules].
  assert (rules_for CBody (sync_rules (response_of_contents m g')) = rules_for CBody (msg_rules m)) as RB.
  { transitivity (cat_add_rules (cat_empty CBody) (cat_or CBody (find_category CBody (msg_rules m)))); [reflexivity|].
    rewrite (whole_category CBody _ K1), (find_rules CBody (msg_rules m)). reflexivity. }
  rewrite RB.
  assert (match_message_metadata w (sync_message_of (response_of_contents m g')) a (mkCtx true (rules_for CMetadata (sync_rules (response_of_contents m g')))) =
          match_message_metadata w m a (mkCtx true (rules_for CMetadata (msg_rules m)))) as RM.
  { unfold match_message_metadata. cbn [sync_message_of msg_metadata response_of_contents cb_meta meta_list]. apply map_ext. intro kv. f_equal.
    destruct (obj_get (fst kv) (msg_metadata a)) as [v|]; [|reflexivity].
    replace (rules_for CMetadata (sync_rules (response_of_contents m g'))) with (cat_add_rules (cat_empty CMetadata) (cat_or CMetadata (find_category CMetadata (msg_rules m)))) by reflexivity.
    rewrite (whole_category CMetadata _ K2), (find_rules CMetadata (msg_rules m)).
    destruct (find_category CMetadata (msg_rules m)); [reflexivity|]. unfold match_metadata_value.
    rewrite !(no_rules_undefined (mkCtx true (cat_empty CMetadata))) by reflexivity. rewrite !(no_rules_undefined (mkCtx true (cat_empty CBody))) by reflexivity. reflexivity. }
  rewrite RM. reflexivity.
Qed.
End Built.
