(** C97: a V4 pact file read back is the pact that was written. *)
From Coq Require Import Ascii String List Arith NArith ZArith Lia Bool Permutation Sorted.
From Verif Require Import Base PathExp Json Text TextProofs MatchingRules Matchers JsonCompare Headers Query QueryString ContentType Http Merge Expr Generators Base64 PactFile
  SpecQuery SpecRules SpecGenerators SpecVerifier SpecPactFile QueryProofs HeaderProofs2 PropQuery PropVerifier PropBroker2 PropStateChange PactFileProofs PactFileProofs2.
Import ListNotations.
Open Scope N_scope.
Local Opaque show_N.

Lemma last_if : forall A k k' (b : bool) (v : A), last_entry k (if b then [] else [(k', v)]) = if str_eqb k k' then (if b then None else Some v) else None.
Proof. intros A k k' [] v; cbn [last_entry]; destruct (str_eqb k k'); reflexivity. Qed.
Definition is_nil {A} (l : list A) : bool := match l with [] => true | _ => false end.
Definition plugins_written (l : list (str * list (str * json))) : json :=
  JObj (obj_of_list (map (fun kv => (fst kv, JObj (obj_of_list (snd kv)))) l)).
Definition markup_json (m : str * str) : json := JObj [(S_ "markup", JStr (fst m)); (S_ "markupType", JStr (snd m))].
Lemma extra_shape : forall i, extra_written i =
  [(S_ "description", JStr (f_desc i)); (S_ "pending", JBool (x_pending (f_extra i)))] ++
  optional (S_ "key") JStr (f_key i) ++
  (if is_nil (f_states i) then [] else [(S_ "providerStates", JArr (map state_to_json (f_states i)))]) ++
  map_written (S_ "comments") (filter (fun kv => negb (json_is_empty (snd kv))) (x_comments (f_extra i))) ++
  (if is_nil (x_plugin (f_extra i)) then [] else [(S_ "pluginConfiguration", plugins_written (x_plugin (f_extra i)))]) ++
  (if is_nil (fst (x_markup (f_extra i))) then [] else [(S_ "interactionMarkup", markup_json (x_markup (f_extra i)))]) ++
  optional (S_ "transport") JStr (x_transport (f_extra i)).
Proof.
  intro i. unfold extra_written, markup_written. destruct (f_states i), (x_plugin (f_extra i)), (fst (x_markup (f_extra i))) eqn:E; unfold markup_json; rewrite ?E; reflexivity.
Qed.
Lemma extra_other : forall i k, ~ In k [S_ "description"; S_ "pending"; S_ "key"; S_ "providerStates"; S_ "comments"; S_ "pluginConfiguration"; S_ "interactionMarkup"; S_ "transport"] ->
  last_entry k (extra_written i) = None.
Proof.
  intros i k H. rewrite extra_shape, !last_entry_app, !last_if, !last_optional, last_map_written, last_cons, last_one.
  repeat match goal with |- context [str_eqb k (S_ ?a)] => destruct (str_eqb_spec k (S_ a)) as [->|_]; [exfalso; apply H; cbn [In]; tauto|] end. reflexivity.
Qed.
Lemma of_list_mapped : forall A (f : A -> json) (l : list (str * A)) k, distinct l ->
  obj_get k (obj_of_list (map (fun kv => (fst kv, f (snd kv))) l)) = option_map f (obj_get k l).
Proof.
  intros A f l k D. rewrite of_list_get, last_entry_nodup by (unfold keys; rewrite map_map; exact D).
  rewrite (obj_get_map A json f). destruct (obj_get k l); reflexivity.
Qed.
Lemma distinct_filter : forall A (f : str * A -> bool) l, distinct l -> distinct (filter f l).
Proof.
  intros A f l D. unfold distinct in *. induction l as [|kv l IH]; [constructor|]. cbn [map] in D. inversion D as [|? ? N1 N2]; subst. cbn [filter].
  destruct (f kv); [|apply IH, N2]. cbn [map]. constructor; [|apply IH, N2]. intro I1. apply N1. apply in_map_iff in I1. destruct I1 as (kv' & E & I1).
  apply filter_In in I1. apply in_map_iff. exists kv'. tauto.
Qed.
Lemma distinct_in_get : forall A k v (l : list (str * A)), distinct l -> (obj_get k l = Some v <-> In (k, v) l).
Proof. intros A k v l D. split; [apply obj_get_in|apply obj_get_nodup, D]. Qed.
Lemma blank_iff : forall j, json_is_empty j = true <-> blank j.
Proof.
  intro j. unfold blank. split.
  - destruct j as [|b|n|[|c s]|[|a l]|[|a m]]; intro H; try discriminate; auto.
  - intros [-> | [-> | [-> | ->]]]; reflexivity.
Qed.
Lemma state_back : forall w s, distinct (st_params s) -> same_state s (state_from_json w (state_to_json s)).
Proof.
  intros w [n ps] D. cbn [st_params] in D. unfold state_from_json, state_to_json, same_state. cbn [st_name st_params].
  rewrite !get_of, !last_cons, !last_map_written. keys_decide. split; [reflexivity|]. destruct ps as [|p ps]; [intro k; reflexivity|]. apply of_list_same, D.
Qed.
Definition extra_ok (i : file_interaction) : Prop :=
  Forall (fun s => distinct (st_params s)) (f_states i) /\ distinct (x_comments (f_extra i)) /\
  distinct (x_plugin (f_extra i)) /\ Forall (fun kc => distinct (snd kc)) (x_plugin (f_extra i)).
Lemma common_back : forall w x i fields p' index, extra_ok i ->
  (forall k, In k [S_ "description"; S_ "pending"; S_ "key"; S_ "providerStates"; S_ "comments"; S_ "pluginConfiguration"; S_ "interactionMarkup"; S_ "transport"; S_ "_id"; S_ "providerState"; S_ "provider_state"] ->
     last_entry k fields = None) ->
  same_payload w x (f_payload i) p' ->
  same_interaction w x i (common_from_json w index (JObj (obj_of_list (extra_written i ++ fields))) p').
Proof.
  intros w x i fields p' index (Ds & Dc & Dp & Dq) Fi Sp. rewrite extra_shape. set (j := JObj _).
  assert (A : forall k, In k [S_ "description"; S_ "pending"; S_ "key"; S_ "providerStates"; S_ "comments"; S_ "pluginConfiguration"; S_ "interactionMarkup"; S_ "transport"; S_ "_id"; S_ "providerState"; S_ "provider_state"] ->
    json_get k j = last_entry k (extra_written i)).
  { intros k Ik. subst j. rewrite get_of, last_entry_app, (Fi k Ik), extra_shape. reflexivity. }
  clearbody j. rewrite extra_shape in A.
  assert (F1 : json_get (S_ "description") j = Some (JStr (f_desc i))).
  { rewrite A by (cbn [In]; tauto). rewrite !last_entry_app, !last_if, !last_optional, last_map_written, last_cons, last_one. keys_decide. reflexivity. }
  assert (F2 : json_get (S_ "pending") j = Some (JBool (x_pending (f_extra i)))).
  { rewrite A by (cbn [In]; tauto). rewrite !last_entry_app, !last_if, !last_optional, last_map_written, last_cons, last_one. keys_decide. reflexivity. }
  assert (F3 : json_get (S_ "key") j = option_map JStr (f_key i)).
  { rewrite A by (cbn [In]; tauto). rewrite !last_entry_app, !last_if, !last_optional, last_map_written, last_cons, last_one. keys_decide. destruct (f_key i); reflexivity. }
  assert (F4 : json_get (S_ "providerStates") j = if is_nil (f_states i) then None else Some (JArr (map state_to_json (f_states i)))).
  { rewrite A by (cbn [In]; tauto). rewrite !last_entry_app, !last_if, !last_optional, last_map_written, last_cons, last_one. keys_decide. destruct (is_nil (f_states i)); reflexivity. }
  assert (F5 : json_get (S_ "comments") j = last_entry (S_ "comments") (map_written (S_ "comments") (filter (fun kv => negb (json_is_empty (snd kv))) (x_comments (f_extra i))))).
  { rewrite A by (cbn [In]; tauto). rewrite !last_entry_app, !last_if, !last_optional, last_map_written, last_cons, last_one. keys_decide. destruct (filter _ _); reflexivity. }
  assert (F6 : json_get (S_ "pluginConfiguration") j = if is_nil (x_plugin (f_extra i)) then None else Some (plugins_written (x_plugin (f_extra i)))).
  { rewrite A by (cbn [In]; tauto). rewrite !last_entry_app, !last_if, !last_optional, last_map_written, last_cons, last_one. keys_decide. destruct (is_nil (x_plugin (f_extra i))); reflexivity. }
  assert (F7 : json_get (S_ "interactionMarkup") j = if is_nil (fst (x_markup (f_extra i))) then None else Some (markup_json (x_markup (f_extra i)))).
  { rewrite A by (cbn [In]; tauto). rewrite !last_entry_app, !last_if, !last_optional, last_map_written, last_cons, last_one. keys_decide. destruct (is_nil (fst (x_markup (f_extra i)))); reflexivity. }
  assert (F8 : json_get (S_ "transport") j = option_map JStr (x_transport (f_extra i))).
  { rewrite A by (cbn [In]; tauto). rewrite !last_entry_app, !last_if, !last_optional, last_map_written, last_cons, last_one. keys_decide. destruct (x_transport (f_extra i)); reflexivity. }
  assert (F9 : json_get (S_ "_id") j = None).
  { rewrite A by (cbn [In]; tauto). rewrite !last_entry_app, !last_if, !last_optional, last_map_written, last_cons, last_one. keys_decide. reflexivity. }
  assert (G1 : json_get (S_ "providerState") j = None).
  { rewrite A by (cbn [In]; tauto). rewrite !last_entry_app, !last_if, !last_optional, last_map_written, last_cons, last_one. keys_decide. reflexivity. }
  assert (G2 : json_get (S_ "provider_state") j = None).
  { rewrite A by (cbn [In]; tauto). rewrite !last_entry_app, !last_if, !last_optional, last_map_written, last_cons, last_one. keys_decide. reflexivity. }
  unfold same_interaction, common_from_json, extra_from_json. cbn [f_id f_key f_desc f_states f_extra f_payload x_pending x_transport x_comments x_plugin x_markup].
  unfold string_at. rewrite F1, F2, F3, F7, F8, F9.
  repeat (match goal with |- _ /\ _ => split end); try reflexivity; try exact Sp.
  - destruct (f_key i); reflexivity.
  - unfold states_from_json. rewrite F4, G1, G2. cbn [Http.or_else]. destruct (f_states i) as [|s l] eqn:E; cbn [is_nil]; [constructor|].
    rewrite map_map. clear -Ds. induction Ds as [|s0 l0 D _ IH]; cbn [map]; [constructor|]. constructor; [apply state_back, D|exact IH].
  - destruct (x_transport (f_extra i)); reflexivity.
  - intros k v. rewrite F5, last_map_written, str_eqb_refl.
    change (@entry json) with (@obj_get json).
    assert (forall m, m = filter (fun kv : str * json => negb (json_is_empty (snd kv))) (x_comments (f_extra i)) ->
      obj_get k (match match m with [] => None | _ :: _ => Some (JObj (obj_of_list m)) end with Some (JObj m0) => m0 | _ => [] end) = obj_get k m) as R.
    { intros m Em. destruct m as [|kv m]; [reflexivity|]. rewrite of_list_get. apply last_entry_nodup. change (distinct (kv :: m)). rewrite Em. apply distinct_filter, Dc. }
    rewrite (R _ eq_refl). rewrite !distinct_in_get by (try apply distinct_filter; exact Dc). rewrite filter_In. cbn [snd].
    rewrite <- blank_iff. destruct (json_is_empty v); cbn [negb]; intuition congruence.
  - intro k. unfold plugin_config_from_json. rewrite F6.
    change (@entry (list (str * json))) with (@obj_get (list (str * json))).
    destruct (x_plugin (f_extra i)) as [|kc l] eqn:E; [exact I|]. cbn [is_nil]. unfold plugins_written.
    rewrite (obj_get_map json (list (str * json)) (fun v => match v with JObj c => c | _ => [] end)).
    rewrite (of_list_mapped (list (str * json)) (fun c => JObj (obj_of_list c))) by exact Dp.
    destruct (obj_get k (kc :: l)) as [c|] eqn:G; [|exact I]. cbn [option_map same_option]. apply of_list_same.
    apply obj_get_in in G. rewrite Forall_forall in Dq. exact (Dq _ G).
  - destruct (x_markup (f_extra i)) as [m t]. cbn [fst is_nil]. destruct m; reflexivity.
Qed.
Lemma collect_ok : forall A B (f : A -> outcome B unit) (R : A -> B -> Prop) l,
  Forall (fun a => exists b, f a = Ok b /\ R a b) l -> exists bs, collect (map f l) = Ok bs /\ Forall2 R l bs.
Proof.
  intros A B f R l H. induction H as [|a l (b & E & Rb) _ (bs & Es & Rs)]; [exists []; split; [reflexivity|constructor]|].
  exists (b :: bs). cbn [map collect]. rewrite E, Es. split; [reflexivity|constructor; assumption].
Qed.

Section Interactions.
Variable w : world.
Variable x : externals.
Hypothesis SF : forall f, show_float w f <> [].

Lemma interaction_back : forall i, interaction_ok w x i -> exists j, interaction_to_json w x i = Ok j /\
  forall index, exists i', interaction_from_json w x index j = Ok i' /\ same_interaction w x i i'.
Proof.
  intros i (Ds & Dc & Dp & Dq & Pa). assert (Ex : extra_ok i) by (unfold extra_ok; auto). clear Ds Dc Dp Dq. unfold interaction_to_json.
  assert (O : forall fields k, ~ In k [S_ "description"; S_ "pending"; S_ "key"; S_ "providerStates"; S_ "comments"; S_ "pluginConfiguration"; S_ "interactionMarkup"; S_ "transport"] ->
     json_get k (JObj (obj_of_list (extra_written i ++ fields))) = last_entry k fields).
  { intros fields k Nk. rewrite get_of, last_entry_app, extra_other by exact Nk. destruct (last_entry k fields); reflexivity. }
  destruct (f_payload i) as [q r|m|q l] eqn:Ep.
  - destruct Pa as [Pq Pr]. destruct (request_back w x SF q Pq) as (jq & -> & q' & Rq & Sq). destruct (response_back w x SF r Pr) as (jr & -> & r' & Rr & Sr).
    cbn [bind]. eexists. split; [reflexivity|]. intro index. set (j := JObj _).
    assert (G1 : json_get (S_ "type") j = Some (JStr (S_ "Synchronous/HTTP"))) by (subst j; rewrite O by (cbn [In]; intuition discriminate); reflexivity).
    assert (G2 : json_get (S_ "request") j = Some jq) by (subst j; rewrite O by (cbn [In]; intuition discriminate); reflexivity).
    assert (G3 : json_get (S_ "response") j = Some jr) by (subst j; rewrite O by (cbn [In]; intuition discriminate); reflexivity).
    unfold interaction_from_json. rewrite G1, G2, G3. cbn [json_to_string or_null]. rewrite str_eqb_refl. rewrite Rq. cbn [bind]. rewrite Rr. cbn [bind].
    eexists. split; [reflexivity|]. apply common_back; [exact Ex| |rewrite Ep; split; assumption].
    intros k Ik. cbn [In] in Ik. rewrite !last_cons. intuition (subst; keys_decide; reflexivity).
  - cbn [payload_ok] in Pa. destruct m as [m g]. cbn [fst snd] in *. pose proof Pa as (Dm & Bo & Ru & Ge). cbn [fst snd] in *.
    destruct (rules_back w _ Ru) as (rs & -> & Rn & Rr). cbn [bind]. eexists. split; [reflexivity|]. intro index.
    match goal with |- context [JObj (obj_of_list (extra_written i ++ ?f))] => set (fields := f); set (j := JObj (obj_of_list (extra_written i ++ fields))) end.
    assert (G1 : json_get (S_ "type") j = Some (JStr (S_ "Asynchronous/Messages"))).
    { subst j. rewrite O by (cbn [In]; intuition discriminate). subst fields. rewrite !last_entry_app, last_field, last_map_written, last_generators, last_one, Rn by discriminate. keys_decide. reflexivity. }
    unfold interaction_from_json. rewrite G1. cbn [json_to_string]. keys_decide.
    destruct (contents_back w x SF own_only m g j (msg_contents m) rs Pa) as (q' & R & Sq).
    + destruct (msg_contents m) as [| | |bytes own h]; try reflexivity. exists own. split; [reflexivity|]. destruct own; reflexivity.
    + subst j. rewrite O by (cbn [In]; intuition discriminate). subst fields. rewrite !last_entry_app, !last_field, last_map_written, last_generators, last_one, Rn by discriminate. keys_decide. destruct (body_to_v4_json x _); reflexivity.
    + subst j. rewrite O by (cbn [In]; intuition discriminate). subst fields. rewrite !last_entry_app, !last_field, !last_map_written, last_generators, last_one, Rn by discriminate. keys_decide. destruct (msg_metadata m); reflexivity.
    + subst j. rewrite O by (cbn [In]; intuition discriminate). subst fields. rewrite !last_entry_app, !last_field, !last_map_written, last_generators, last_one. keys_decide. destruct (last_entry (S_ "matchingRules") rs); reflexivity.
    + exact Rr.
    + subst j. rewrite O by (cbn [In]; intuition discriminate). subst fields. rewrite !last_entry_app, !last_field, !last_map_written, last_generators, last_one, Rn by discriminate. keys_decide. destruct (gens_is_empty g); reflexivity.
    + rewrite R. cbn [bind]. eexists. split; [reflexivity|]. subst j. apply common_back; [exact Ex| |rewrite Ep; exact Sq].
      intros k Ik. subst fields. rewrite !last_entry_app, !last_field, !last_map_written, last_generators, last_one.
      cbn [In] in Ik. intuition (subst; keys_decide; rewrite Rn by discriminate; reflexivity).
  - destruct Pa as [Pq Pl]. destruct (message_back w x SF q Pq) as (jq & -> & q' & Rq & Sq). cbn [bind].
    destruct (collect_ok _ _ (fun m => message_to_json w x (fst m) (snd m)) (fun m j => exists m', message_from_json w x j = Ok m' /\ same_message w x (by_metadata w x m) m m') l) as (js & -> & Rl).
    { rewrite Forall_forall in *. intros m Im. destruct (message_back w x SF m (Pl m Im)) as (j & E & H). exists j. split; [exact E|exact H]. }
    cbn [bind]. eexists. split; [reflexivity|]. intro index. set (j := JObj _).
    assert (G1 : json_get (S_ "type") j = Some (JStr (S_ "Synchronous/Messages"))) by (subst j; rewrite O by (cbn [In]; intuition discriminate); reflexivity).
    assert (G2 : json_get (S_ "request") j = Some jq) by (subst j; rewrite O by (cbn [In]; intuition discriminate); reflexivity).
    assert (G3 : json_get (S_ "response") j = Some (JArr js)) by (subst j; rewrite O by (cbn [In]; intuition discriminate); reflexivity).
    unfold interaction_from_json. rewrite G1, G2, G3. cbn [json_to_string]. keys_decide.
    assert (exists l', collect (map (message_from_json w x) js) = Ok l' /\ Forall2 (fun m m' => same_message w x (by_metadata w x m) m m') l l') as (l' & -> & Sl).
    { clear -Rl. induction Rl as [|m jm l js (m' & E & Sm) _ (l' & El & Sl)]; [exists []; split; [reflexivity|constructor]|].
      exists (m' :: l'). cbn [map collect]. rewrite E, El. split; [reflexivity|constructor; assumption]. }
    cbn [bind]. rewrite Rq. cbn [bind]. eexists. split; [reflexivity|]. apply common_back; [exact Ex| |rewrite Ep; split; assumption].
    intros k Ik. cbn [In] in Ik. rewrite !last_cons. intuition (subst; keys_decide; reflexivity).
Qed.
End Interactions.

(** ** The order of the interactions *)
Lemma str_lt_of_gt : forall a b, str_compare a b = Gt -> str_lt b a.
Proof. intros a b H. unfold str_lt. rewrite str_compare_antisym, H. reflexivity. Qed.
Definition desc_le (i j : file_interaction) : Prop := f_desc i = f_desc j \/ str_lt (f_desc i) (f_desc j).
Lemma desc_le_trans : forall i j k, desc_le i j -> desc_le j k -> desc_le i k.
Proof.
  intros i j k [E|L] [E'|L']; unfold desc_le; [left; congruence|right; rewrite E; exact L'|right; rewrite <- E'; exact L|right; eapply str_lt_trans; eassumption].
Qed.
Lemma insert_spec : forall i l, StronglySorted desc_le l ->
  Permutation (i :: l) (insert_by_description i l) /\ StronglySorted desc_le (insert_by_description i l) /\
  forall d, filter (fun j => str_eqb (f_desc j) d) (insert_by_description i l) = filter (fun j => str_eqb (f_desc j) d) (i :: l).
Proof.
  intros i l H. induction H as [|j l Hl (P & S & F) Fl]; cbn [insert_by_description].
  - split; [reflexivity|]. split; [constructor; constructor|reflexivity].
  - assert (Le : str_compare (f_desc i) (f_desc j) <> Gt -> desc_le i j).
    { intro N. unfold desc_le. destruct (str_compare (f_desc i) (f_desc j)) eqn:E; [left; apply str_compare_eq, E|right; exact E|congruence]. }
    destruct (str_compare (f_desc i) (f_desc j)) eqn:E.
    3:{ apply str_lt_of_gt in E. split; [etransitivity; [apply perm_swap|constructor; exact P]|]. split.
        - constructor; [exact S|]. eapply Permutation_Forall; [exact P|]. constructor; [right; exact E|exact Fl].
        - intro d. cbn [filter]. rewrite F. cbn [filter]. destruct (str_eqb_spec (f_desc j) d) as [Ej|]; [|reflexivity].
          destruct (str_eqb_spec (f_desc i) d) as [Ei|]; [|reflexivity]. exfalso. rewrite Ej, Ei in E. exact (str_lt_irrefl _ E). }
    1,2: split; [reflexivity|]; split; [|reflexivity]; constructor; [constructor; assumption|]; constructor; [apply Le; discriminate|];
      (eapply Forall_impl; [|exact Fl]; intros k Hk; eapply desc_le_trans; [apply Le; discriminate|exact Hk]).
Qed.
Lemma sort_stable : forall l, sorted_stably l (sort_interactions l).
Proof.
  induction l as [|i l (P & S & F)]; [split; [constructor|split; [constructor|reflexivity]]|]. unfold sort_interactions. cbn [fold_right]. fold (sort_interactions l).
  destruct (insert_spec i _ S) as (P' & S' & F'). split; [etransitivity; [constructor; exact P|exact P']|]. split; [exact S'|].
  intro d. rewrite F'. cbn [filter]. rewrite F. reflexivity.
Qed.

(** ** Metadata *)
Lemma plugin_back : forall d, distinct (pl_config d) -> exists d', plugin_from_json (plugin_to_json d) = Some d' /\ same_plugin d d'.
Proof.
  intros [n v c] D. cbn [pl_config] in D. unfold plugin_from_json, plugin_to_json. cbn [pl_name pl_version pl_config].
  rewrite !get_of, !last_cons. keys_decide. cbn [last_entry]. keys_decide. eexists. split; [reflexivity|]. unfold same_plugin. cbn [pl_name pl_version pl_config].
  split; [reflexivity|]. split; [reflexivity|]. apply of_list_same, D.
Qed.
Lemma plugins_back : forall l, Forall (fun d => distinct (pl_config d)) l ->
  Forall2 same_plugin l (flat_map (fun p => match plugin_from_json p with Some d => [d] | None => [] end) (map plugin_to_json l)).
Proof.
  intros l H. induction H as [|d l Hd _ IH]; [constructor|]. cbn [map flat_map]. destruct (plugin_back d Hd) as (d' & -> & Sd). constructor; assumption.
Qed.
Lemma filter_get : forall A (f : str -> bool) (m : list (str * A)) k, obj_get k (filter (fun kv => f (fst kv)) m) = if f k then obj_get k m else None.
Proof.
  intros A f m k. induction m as [|[k' v] m IH]; cbn [filter obj_get fst]; [destruct (f k); reflexivity|].
  destruct (f k') eqn:E; cbn [obj_get]; rewrite ?IH; destruct (str_eqb_spec k k') as [->|]; rewrite ?E; try reflexivity.
Qed.
Lemma entry_obj_get : forall A, @entry A = @obj_get A.
Proof. reflexivity. Qed.
Lemma metadata_keys : forall md : list (str * json), entry (S_ "pact-specification") md = None -> entry (S_ "pact-rust") md = None ->
  map (fun kv => (metadata_key (fst kv), snd kv)) md = md.
Proof.
  intros md H1 H2. rewrite !entry_obj_get, obj_get_none in H1, H2. rewrite <- (map_id md) at 2. apply map_ext_in. intros [k v] I1. cbn [fst snd]. f_equal.
  unfold metadata_key. destruct (str_eqb_spec k (S_ "pact-specification")) as [->|]; [destruct H1; apply (in_map fst _ _ I1)|].
  destruct (str_eqb_spec k (S_ "pact-rust")) as [->|]; [destruct H2; apply (in_map fst _ _ I1)|]. reflexivity.
Qed.
Lemma metadata_back_ok : forall w x version p j, pact_ok w x p -> json_get (S_ "metadata") j = Some (metadata_to_json version p) ->
  same_metadata version (vf_meta p) (fst (metadata_from_json j)) /\ Forall2 same_plugin (vf_plugins p) (snd (metadata_from_json j)).
Proof.
  intros w x version p j (_ & Dm & Nk & Dp) G. unfold metadata_from_json. rewrite G. unfold metadata_to_json.
  rewrite metadata_keys by (apply Nk; cbn [In]; tauto).
  set (md0 := obj_of_list (vf_meta p)).
  assert (E0 : forall k, obj_get k md0 = obj_get k (vf_meta p)) by (intro k; subst md0; rewrite of_list_get; apply last_entry_nodup, Dm). clearbody md0.
  rewrite !obj_insert_get. keys_decide. rewrite E0.
  set (md1 := obj_insert (S_ "pactSpecification") _ md0).
  assert (E1 : forall k, obj_get k md1 = if str_eqb k (S_ "pactSpecification") then Some (JObj [(S_ "version", JStr (S_ "4.0"))]) else obj_get k (vf_meta p)).
  { intro k. subst md1. rewrite obj_insert_get, E0. reflexivity. }
  clearbody md1.
  set (md2 := match obj_get (S_ "pactRust") (vf_meta p) with Some (JObj m) => _ | Some _ => md1 | None => _ end).
  assert (E2 : (forall k, k <> S_ "pactRust" -> obj_get k md2 = obj_get k md1) /\ with_models version (obj_get (S_ "pactRust") (vf_meta p)) (obj_get (S_ "pactRust") md2)).
  { subst md2. pose proof (E1 (S_ "pactRust")) as Er. keys_decide. change (str_eqb (S_ "pactRust") (S_ "pactSpecification")) with false in Er. cbv iota in Er.
    destruct (obj_get (S_ "pactRust") (vf_meta p)) as [[| | | | |m]|] eqn:Ep; (split;
      [intros k N; rewrite ?obj_insert_get; destruct (str_eqb_spec k (S_ "pactRust")); [contradiction|reflexivity]|]); try exact Er.
    - exists (obj_insert (S_ "models") (JStr version) m). rewrite obj_insert_get, str_eqb_refl. split; [reflexivity|]. rewrite !entry_obj_get.
      split; [rewrite obj_insert_get, str_eqb_refl; reflexivity|]. intros k N. rewrite obj_insert_get. destruct (str_eqb_spec k (S_ "models")); [contradiction|reflexivity].
    - cbn [with_models]. rewrite obj_insert_get, str_eqb_refl. reflexivity. }
  clearbody md2. destruct E2 as [E2 Wm].
  assert (Pn : obj_get (S_ "plugins") md2 = None).
  { rewrite E2 by discriminate. rewrite E1. keys_decide. apply Nk. cbn [In]. tauto. }
  set (md3 := match vf_plugins p with [] => md2 | _ :: _ => _ end).
  assert (E3 : (forall k, k <> S_ "plugins" -> obj_get k md3 = obj_get k md2) /\
    obj_get (S_ "plugins") md3 = match vf_plugins p with [] => None | _ => Some (JArr (map plugin_to_json (vf_plugins p))) end).
  { subst md3. destruct (vf_plugins p) as [|d l]; [split; [reflexivity|exact Pn]|]. split; [|rewrite obj_insert_get, str_eqb_refl; reflexivity].
    intros k N. rewrite obj_insert_get. destruct (str_eqb_spec k (S_ "plugins")); [contradiction|reflexivity]. }
  clearbody md3. destruct E3 as [E3 Pl]. cbn [fst snd]. split.
  - unfold same_metadata. rewrite !entry_obj_get.
    assert (K : forall k, obj_get k (filter (fun kv : str * json => negb (str_eqb (fst kv) (S_ "plugins"))) md3) = if str_eqb k (S_ "plugins") then None else obj_get k md2).
    { intro k. rewrite (filter_get json (fun k => negb (str_eqb k (S_ "plugins")))). destruct (str_eqb_spec k (S_ "plugins")); [reflexivity|]. cbn [negb]. apply E3. assumption. }
    rewrite !K. keys_decide. split; [|split].
    + rewrite E2 by discriminate. rewrite E1, str_eqb_refl. reflexivity.
    + exact Wm.
    + intros k N1 N2. rewrite K. destruct (str_eqb_spec k (S_ "plugins")) as [->|N3].
      * symmetry. apply Nk. cbn [In]. tauto.
      * rewrite E2, E1 by exact N2. destruct (str_eqb_spec k (S_ "pactSpecification")); [contradiction|reflexivity].
  - rewrite Pl. pose proof (plugins_back _ Dp) as B. destruct (vf_plugins p); exact B.
Qed.

(** C97: a pact is written, and what has been written is read back as the same pact - up to the order of the interactions and
    the losses listed in [same_pact]. *)
Theorem C97_file_roundtrip : forall w x version p, (forall f, show_float w f <> []) -> pact_ok w x p ->
  exists j p', pact_to_json w x version p = Ok j /\ pact_from_json w x j = Ok p' /\ same_pact w x version p p'.
Proof.
  intros w x version p SF OK. unfold pact_to_json.
  pose proof (sort_stable (vf_ints p)) as St. pose proof St as (P & _ & _).
  destruct (collect_ok _ _ (interaction_to_json w x) (fun i j => forall index, exists i', interaction_from_json w x index j = Ok i' /\ same_interaction w x i i') (sort_interactions (vf_ints p))) as (js & -> & Rl).
  { eapply Permutation_Forall; [exact P|]. eapply Forall_impl; [|exact (proj1 OK)]. intros i Hi. destruct (interaction_back w x SF i Hi) as (j & E & H). eauto. }
  cbn [bind]. set (J := JObj (obj_of_list _)).
  assert (G1 : json_get (S_ "consumer") J = Some (who_to_json (consumer (vf_who p)))) by reflexivity.
  assert (G2 : json_get (S_ "provider") J = Some (who_to_json (provider (vf_who p)))) by reflexivity.
  assert (G3 : json_get (S_ "interactions") J = Some (JArr js)) by reflexivity.
  assert (G4 : json_get (S_ "metadata") J = Some (metadata_to_json version p)) by reflexivity.
  clearbody J. exists J.
  destruct (metadata_back_ok w x version p J OK G4) as [Sm Sp].
  assert (exists l', interactions_from_json w x J = Ok l' /\ Forall2 (same_interaction w x) (sort_interactions (vf_ints p)) l') as (l' & Il & Sl).
  { unfold interactions_from_json. rewrite G3. generalize 0%nat. clear -Rl. induction Rl as [|i j l js H _ IH]; intro n; [exists []; split; [reflexivity|constructor]|].
    cbn [number_from map collect fst snd]. destruct (H n) as (i' & -> & Si). destruct (IH (S n)) as (l' & -> & Sl). exists (i' :: l'). split; [reflexivity|constructor; assumption]. }
  eexists. split; [reflexivity|]. unfold pact_from_json. rewrite Il. cbn [bind]. split; [reflexivity|]. unfold same_pact. cbn [vf_who vf_ints vf_meta vf_plugins].
  split; [rewrite G1, G2; destruct (vf_who p); reflexivity|]. split; [exact Sm|]. split; [exact Sp|]. exists (sort_interactions (vf_ints p)). split; assumption.
Qed.
