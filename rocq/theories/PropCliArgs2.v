(** C123: what an accepted command line means. *)
From Coq Require Import Ascii String List Arith NArith ZArith Lia Bool.
From Verif Require Import Base PathExp Json Text TextProofs VerifierClient Verifier Broker VerifierHandle CliArgs SpecCliArgs PropCliArgs PropVerifierHandle3.
From Verif Require PropPattern3.
Import ListNotations.
Open Scope N_scope.

Lemma all_values : forall a l, values_of a l (values a l).
Proof.
  intros a. induction l as [|[b v] l IH]; [constructor|]. unfold values. cbn [flat_map fst snd]. destruct (arg_eq_dec b a) as [->|N]; [now constructor|now constructor].
Qed.
Lemma in_values : forall a l v, In v (values a l) <-> In (a, v) l.
Proof.
  intros a l v. unfold values. rewrite in_flat_map. split.
  - intros ([b u] & I & H). cbn [fst snd] in H. destruct (arg_eq_dec b a) as [->|]; [|destruct H]. destruct H as [<-|[]]. exact I.
  - intro I. exists (a, v). split; [exact I|]. cbn [fst snd]. destruct (arg_eq_dec a a); [now left|congruence].
Qed.
Lemma values_app : forall a l1 l2, values a (l1 ++ l2) = values a l1 ++ values a l2.
Proof. intros. unfold values. apply flat_map_app. Qed.
Lemma once_value : forall a l, only_once l -> (forall m, a <> AMulti m) -> values a l = [] \/ exists v, values a l = [v].
Proof.
  intros a l H NM. destruct (values a l) as [|v [|v' vs]] eqn:E; [now left|right; eauto|exfalso].
  assert (I : In (a, v) l) by (apply in_values; rewrite E; now left).
  (* the first occurrence *)
  assert (G : exists l1 l2, l = l1 ++ (a, v) :: l2 /\ values a l2 = v' :: vs).
  { clear - E. revert E. induction l as [|[b u] l IH]; [discriminate|]. unfold values. cbn [flat_map fst snd]. destruct (arg_eq_dec b a) as [->|N].
    - intro E. injection E as -> E. exists [], l. auto.
    - intro E. destruct (IH E) as (l1 & l2 & -> & E2). exists ((b, u) :: l1), l2. auto. }
  destruct G as (l1 & l2 & -> & E2). assert (I2 : In (a, v') l2) by (apply in_values; rewrite E2; now left). apply in_split in I2. destruct I2 as (l3 & l4 & ->).
  destruct (H l1 a v l3 v' l4 eq_refl) as [m M]. now apply NM in M.
Qed.
Lemma one_value : forall l s, only_once l -> the_value l s (one (ASingle s) l).
Proof.
  intros l s H v. rewrite <- in_values. unfold one. destruct (once_value (ASingle s) l H) as [E|[u E]]; [discriminate|rewrite E|rewrite E].
  - split; [discriminate|intros []].
  - split; [intros [= ->]; now left|intros [->|[]]; reflexivity].
Qed.
Lemma one_number : forall l b s, only_once l -> the_number l b s (number b (ASingle s) l).
Proof.
  intros l b s H n. unfold number. pose proof (one_value l s H) as V. destruct (one (ASingle s) l) as [v|] eqn:E; split.
  - intro A. apply number_iff in A. exists v. split; [now apply V|exact A].
  - intros (u & I & A). apply V in I. injection I as <-. now apply number_iff.
  - discriminate.
  - intros (u & I & _). apply V in I. discriminate.
Qed.
Lemma a_switch : forall l f, the_switch l f (given l (ASwitch f)).
Proof. intros l f. apply given_iff. Qed.
Lemma given_none : forall l a, given l a = false <-> ~ is_given l a.
Proof. intros l a. rewrite <- given_iff. now rewrite not_true_iff_false. Qed.
Lemma none_given : forall l a, ~ is_given l a -> values a l = [].
Proof. intros l a H. destruct (values a l) as [|v vs] eqn:E; [reflexivity|exfalso]. apply H. exists v. apply in_values. rewrite E. now left. Qed.
Lemma the_list : forall l c, only_once l -> is_given l (AListed c) -> the_parts l c (Some (flat_map (split_on 44) (values (AListed c) l))).
Proof.
  intros l c H (v & I) ps. destruct (once_value (AListed c) l H) as [E|[u E]]; [discriminate| |].
  - apply in_values in I. rewrite E in I. destruct I.
  - rewrite E. cbn [flat_map]. rewrite app_nil_r. split.
    + intros [= <-]. exists u. split; [apply in_values; rewrite E; now left|now apply parts_iff].
    + intros (x & Ix & P). apply in_values in Ix. rewrite E in Ix. destruct Ix as [->|[]]. apply parts_iff in P. now subst.
Qed.

Lemma no_values_given : forall l a vs, values_of a l vs -> vs = [] -> ~ is_given l a.
Proof.
  intros l a vs V. induction V as [|v x vs V IH|b v x vs N V IH]; intro E; [intros (v & [])|discriminate|].
  rewrite given_cons. intros [A|A]; [congruence|exact (IH E A)].
Qed.
Section Proofs.
Variable word : N -> bool.
Variable decimal : N -> bool.
Variable w : world.
Variable valid_regex : str -> bool.
Variable parse_json : str -> option json.
Notation acceptable := (acceptable word decimal w valid_regex parse_json).
Notation fine_value := (fine_value word decimal w valid_regex parse_json).
Notation parse_args := (parse_args word decimal w valid_regex parse_json).
Notation options_of := (options_of word decimal w parse_json).
Notation cli_main := (cli_main word decimal w valid_regex parse_json).
Lemma options_given : forall l o, parse_args l = Ok o -> o = options_of l /\ acceptable l.
Proof.
  intros l o H. split; [|apply C123_accepted; eauto]. unfold CliArgs.parse_args in H. destruct (check_values _ _ _ _ _ [] l) as [[]|[]|]; cbn [bind] in H; [|discriminate|discriminate].
  destruct (check_relations l); [|discriminate]. now injection H.
Qed.
Lemma transports_given : forall vs, (forall v, In v vs -> fine_value (AMulti MTransports) v) ->
  Forall2 (parts 32) vs (map (split_on 32) vs) /\
  Forall2 (usable_transport word decimal w) (concat (map (split_on 32) vs)) (flat_map (fun v => ok_or_nil (all_ok (transport_value word decimal w) (split_on 32 v))) vs).
Proof.
  induction vs as [|v vs IH]; intro F; [split; constructor|]. destruct IH as [A B]; [intros u I; apply F; now right|]. split.
  - cbn. constructor; [now apply parts_iff|exact A].
  - cbn. apply Forall2_app; [|exact B]. destruct (F v (or_introl eq_refl)) as (ts & rs & P & U). apply parts_iff in P. subst ts.
    pose proof U as U'. apply transports_iff, all_ok_iff in U'. rewrite U'. exact U.
Qed.
Lemma selectors_given : forall vs, (forall v, In v vs -> exists j, parse_json v = Some j) ->
  Forall2 (fun v j => parse_json v = Some j) vs (flat_map (fun v => match parse_json v with Some j => [j] | None => [] end) vs).
Proof.
  induction vs as [|v vs IH]; intro F; [constructor|]. cbn. destruct (F v (or_introl eq_refl)) as (j & J). rewrite J. constructor; [exact J|]. apply IH. intros u I. apply F. now right.
Qed.
(** The options of an accepted line are what was given. *)
Theorem C123_options : forall l o, parse_args l = Ok o -> meant word decimal w parse_json l o.
Proof.
  intros l o H. apply options_given in H. destruct H as [-> (F & ON & _)].
  constructor; cbn [o_files o_dirs o_urls o_broker_url o_webhook_url o_user o_password o_token o_hostname o_port o_transport o_transports o_provider_name o_base_path
    o_state_url o_state_as_query o_state_teardown o_filter_description o_filter_state o_filter_no_state o_filter_consumers o_publish o_provider_version o_build_url
    o_provider_tags o_provider_branch o_selectors o_consumer_tags o_pending o_wip_since o_no_ssl o_timeout o_custom_headers o_no_colour o_ignore_no_pacts o_json_file o_junit_file CliArgs.options_of];
    try (apply all_values); try (now apply one_value); try (now apply one_number); try (apply a_switch).
  - intro t. pose proof (one_value l STransport ON) as V. destruct (one (ASingle STransport) l) as [v|].
    + rewrite <- (V t). split; [auto|]. intros [E|[N _]]; [exact E|]. exfalso. apply N. exists v. now apply V.
    + split.
      * intros [= <-]. right. split; [|reflexivity]. intros (v & I). apply V in I. discriminate.
      * intros [I|[_ ->]]; [apply V in I; discriminate|reflexivity].
  - exists (values (AMulti MTransports) l), (map (split_on 32) (values (AMulti MTransports) l)). split; [apply all_values|]. apply transports_given.
    intros v I. apply (F (AMulti MTransports) v). now apply in_values.
  - split; [intro G; now apply the_list|]. intro G. now rewrite none_given.
  - split.
    + intro G. apply given_none in G. now rewrite G.
    + intro G. exists (values (AMulti MSelectors) l). eexists. split; [apply all_values|]. apply given_iff in G. rewrite G. split; [reflexivity|].
      apply selectors_given. intros v I. apply (F (AMulti MSelectors) v). now apply in_values.
  - intro ps. destruct (given l (AListed LConsumerTags)) eqn:G.
    + apply given_iff in G. now apply the_list.
    + apply given_none in G. split; [discriminate|]. intros (v & I & _). exfalso. apply G. now exists v.
Qed.
(** The order of different arguments does not matter. *)
Lemma same_given : forall l l', (forall a, values a l = values a l') -> forall a v, In (a, v) l <-> In (a, v) l'.
Proof. intros l l' H a v. rewrite <- !in_values, H. reflexivity. Qed.
Lemma same_is_given : forall l l', (forall a, values a l = values a l') -> forall a, is_given l a <-> is_given l' a.
Proof. intros l l' H a. unfold is_given. setoid_rewrite (same_given l l' H). reflexivity. Qed.
Lemma same_given_b : forall l l', (forall a, values a l = values a l') -> forall a, given l a = given l' a.
Proof.
  intros l l' H a. pose proof (same_is_given l l' H a) as S0. rewrite <- !given_iff in S0. destruct (given l a), (given l' a); try reflexivity; destruct S0 as [A B]; [now rewrite A|now rewrite B].
Qed.
Lemma once_values : forall l, only_once l <-> forall a, (forall m, a <> AMulti m) -> (length (values a l) <= 1)%nat.
Proof.
  intro l. split.
  - intros H a NM. destruct (once_value a l H NM) as [E|[v E]]; rewrite E; cbn; lia.
  - intros H l1 a v l2 v' l3 E. destruct (repeatable a) eqn:R; [now apply repeatable_iff|]. exfalso.
    assert (NM : forall m, a <> AMulti m) by (intros m ->; discriminate). specialize (H a NM). subst l.
    rewrite values_app in H. change ((a, v) :: l2 ++ (a, v') :: l3) with ([(a, v)] ++ l2 ++ [(a, v')] ++ l3) in H. rewrite !values_app in H.
    assert (V : forall u, values a [(a, u)] = [u]) by (intro u; unfold values; cbn; destruct (arg_eq_dec a a); [reflexivity|congruence]).
    rewrite !V, !app_length in H. cbn in H. lia.
Qed.
Theorem C123_order : forall l l', (forall a vs, values_of a l vs -> values_of a l' vs) -> forall o, parse_args l = Ok o -> parse_args l' = Ok o.
Proof.
  intros l l' S1 o H.
  assert (UN : forall a x vs, values_of a x vs -> vs = values a x).
  { intros a x vs V. induction V as [|v x vs V IH|b v x vs N V IH]; [reflexivity| |]; unfold values; cbn [flat_map fst snd].
    - destruct (arg_eq_dec a a); [|congruence]. cbn. f_equal. exact IH.
    - destruct (arg_eq_dec b a); [congruence|]. exact IH. }
  assert (SA : forall a, values a l = values a l') by (intro a; apply UN, S1, all_values). clear S1 UN.
  apply options_given in H. destruct H as [-> (F & ON & CO)].
  assert (AC : acceptable l').
  { split; [|split].
    - intros a v I. apply F. now apply (same_given l l' SA).
    - apply once_values. intros a NM. rewrite <- SA. now apply (proj1 (once_values l) ON).
    - apply relations_iff in CO. apply relations_iff. rewrite <- CO. unfold check_relations, requirements, conflicts. cbn [forallb fst snd]. now rewrite !(same_given_b l l' SA). }
  apply C123_accepted in AC. destruct AC as (o & O'). rewrite O'. apply options_given in O'. destruct O' as [-> _]. f_equal.
  unfold CliArgs.options_of, number, one. now rewrite !SA, !(same_given_b l l' SA).
Qed.

(** ** The program *)
(** An accepted line never stops the program before it knows its sources, there is at least one, and a webhook's is the only one. *)
Theorem C123_sources : forall l o, parse_args l = Ok o -> exists ss, cli_sources o = Some ss /\ ss <> [] /\
  (forall u, In (ASingle SWebhook, u) l -> exists b, In (ASingle SBroker, b) l /\ ss = [SrcWebhook u b (cli_auth o)]) /\
  (forall s n, In s ss -> (exists url p ws t b sel a, s = SrcBroker n url p ws t b sel a) \/ (exists url a, s = SrcBrokerUrl n url a) -> n <> [] /\ In (ASingle SName, n) l).
Proof.
  intros l o H. pose proof (C123_options l o H) as M. apply options_given in H. destruct H as [_ (F & ON & CO)].
  assert (NAMED : forall url, o_broker_url o = Some url -> or_nothing (o_provider_name o) <> [] /\ In (ASingle SName, or_nothing (o_provider_name o)) l).
  { intros url B. apply (m_broker _ _ _ _ _ _ M) in B. destruct (broker_named _ CO) as (n & I); [now exists url|].
    assert (E : o_provider_name o = Some n) by (apply (m_name _ _ _ _ _ _ M); exact I). rewrite E. cbn [or_nothing]. split; [|exact I]. exact (F _ _ I). }
  unfold cli_sources. destruct (o_webhook_url o) as [u|] eqn:W.
  - pose proof W as W'. apply (m_webhook _ _ _ _ _ _ M) in W'. destruct (needs_broker _ CO (ASingle SWebhook)) as (b & I); [now left|now exists u|].
    assert (B : o_broker_url o = Some b) by (apply (m_broker _ _ _ _ _ _ M); exact I). rewrite B. cbn [option_map]. eexists. split; [reflexivity|]. split; [discriminate|]. split.
    + intros u' I'. apply (m_webhook _ _ _ _ _ _ M) in I'. rewrite W in I'. injection I' as <-. exists b. auto.
    + intros s n [<-|[]] [(url & p & ws & t & br & sel & a & E)|(url & a & E)]; discriminate.
  - eexists. split; [reflexivity|]. split; [|split].
    + intro Z. apply app_eq_nil in Z. destruct Z as [Z1 Z]. apply app_eq_nil in Z. destruct Z as [Z2 Z]. apply app_eq_nil in Z. destruct Z as [Z3 Z4].
      apply map_eq_nil in Z1. apply map_eq_nil in Z2. apply map_eq_nil in Z3.
      destruct (has_source _ CO) as [G|[G|[G|G]]].
      * exact (no_values_given _ _ _ (m_files _ _ _ _ _ _ M) Z1 G).
      * exact (no_values_given _ _ _ (m_dirs _ _ _ _ _ _ M) Z2 G).
      * exact (no_values_given _ _ _ (m_urls _ _ _ _ _ _ M) Z3 G).
      * destruct G as (b & I). apply (m_broker _ _ _ _ _ _ M) in I. rewrite I in Z4. destruct (o_selectors o); [discriminate|]. destruct (o_consumer_tags o); discriminate.
    + intros u I. apply (m_webhook _ _ _ _ _ _ M) in I. congruence.
    + intros s n I K. rewrite !in_app_iff, !in_map_iff in I. destruct I as [(x & <- & _)|[(x & <- & _)|[(x & <- & _)|I]]];
        try (destruct K as [(url & p & ws & t & br & sel & a & E)|(url & a & E)]; discriminate).
      destruct (o_broker_url o) as [url|] eqn:B; [|destruct I]. destruct (NAMED url eq_refl) as [NE IN].
      destruct (o_selectors o) as [sel|]; [|destruct (o_consumer_tags o) as [tags|]]; destruct I as [<-|[]];
        (destruct K as [(url' & p & ws & t & br & sel' & a & E)|(url' & a & E)]; [|]; try discriminate; injection E; intros; subst n; auto).
Qed.
(** The program ends with the code 2 without running anything if the line is not accepted, with a panic at a port that is none, and
    otherwise with the code of the run. *)
Theorem C123_program : forall l run written,
  (breaks word decimal w valid_regex parse_json l -> cli_main l run written = None) /\
  (acceptable l -> exists o code, parse_args l = Ok o /\ cli_run o run written = Some code /\ cli_main l run written = Some code) /\
  (~ acceptable l -> ~ breaks word decimal w valid_regex parse_json l -> cli_main l run written = Some 2).
Proof.
  intros l run written. unfold CliArgs.cli_main. split; [|split].
  - intro B. apply C123_why_it_panics in B. now rewrite B.
  - intro A. apply C123_accepted in A. destruct A as (o & P). exists o. rewrite P. destruct (cli_run o run written) as [code|] eqn:R; [eauto|exfalso].
    apply C111_why_a_webhook_needs_a_broker in R. destruct R as [(u & W) B]. destruct (C123_sources l o P) as (ss & S0 & _). unfold cli_sources in S0. rewrite W, B in S0. discriminate.
  - intros NA NB. rewrite <- C123_accepted in NA. rewrite <- C123_why_it_panics in NB. destruct (parse_args l) as [o|[]|]; [exfalso; eauto|reflexivity|congruence].
Qed.
(** A user name or a token is used for all sources, whichever is given; a password alone is not used. *)
Theorem C123_authentication : forall l o, parse_args l = Ok o ->
  (forall u, In (ASingle SUser, u) l -> exists p, cli_auth o = Some (AUser u p) /\ the_value l SPassword p) /\
  (forall t, In (ASingle SToken, t) l -> cli_auth o = Some (AToken t)) /\
  (~ is_given l (ASingle SUser) -> ~ is_given l (ASingle SToken) -> cli_auth o = None).
Proof.
  intros l o H. pose proof (C123_options l o H) as M. apply options_given in H. destruct H as [_ (F & ON & CO)].
  pose proof (m_user _ _ _ _ _ _ M) as U. pose proof (m_token _ _ _ _ _ _ M) as TK. unfold cli_auth. split; [|split].
  - intros u I. apply U in I. rewrite I. exists (o_password o). split; [reflexivity|exact (m_password _ _ _ _ _ _ M)].
  - intros t I. destruct (o_user o) as [u|] eqn:E.
    + exfalso. destruct (one_authentication _ CO) as [N _]; [now exists t|]. apply N. exists u. now apply U.
    + apply TK in I. now rewrite I.
  - intros N1 N2. destruct (o_user o) as [u|] eqn:E; [exfalso; apply N1; exists u; now apply U|]. destruct (o_token o) as [t|] eqn:E2; [exfalso; apply N2; exists t; now apply TK|reflexivity].
Qed.
End Proofs.

(** ** Examples *)
Definition no (c : N) : bool := false.
Definition any_regex (s : str) : bool := true.
Definition no_json (s : str) : option json := None.
Definition parse_line := CliArgs.parse_args no no PropPattern3.digits_world any_regex no_json.
Definition broker_line : list occurrence :=
  [(ASingle SBroker, S_ "http://broker"); (ASwitch FPublish, []); (ASingle SVersion, S_ "1.2"); (ASingle SName, S_ "users"); (AMulti MTransports, S_ "http:8080/api grpc:5555");
   (AListed LConsumerTags, S_ "main,prod"); (AMulti MTransports, S_ "x:1"); (ASingle SPort, S_ "+80"); (ASwitch FPending, [])].
Example C123_example_line : exists o, parse_line broker_line = Ok o /\
  o_transports o = [(S_ "http", 8080, Some (S_ "/api")); (S_ "grpc", 5555, None); (S_ "x", 1, None)] /\
  o_consumer_tags o = Some [S_ "main"; S_ "prod"] /\ o_port o = Some 80 /\ o_publish o = true /\ o_transport o = Some (S_ "http").
Proof. eexists. split; [vm_compute; reflexivity|]. repeat split; vm_compute; reflexivity. Qed.
Example C123_example_errors :
  parse_line [(ASingle SBroker, S_ "http://broker")] = Err tt /\ (* no name of a provider *)
  parse_line [(ASwitch FPretty, [])] = Err tt /\ (* nowhere to take pacts from *)
  parse_line [(AMulti MFile, S_ "a"); (ASingle SUser, S_ "u"); (ASingle SToken, S_ "t")] = Err tt /\
  parse_line [(AMulti MFile, S_ "a"); (ASingle SHost, S_ "u"); (ASingle SHost, S_ "t")] = Err tt /\
  parse_line [(AMulti MFile, S_ "a"); (AMulti MTransports, S_ "x:1234x")] = Err tt /\
  parse_line [(AMulti MFile, S_ "a"); (AMulti MTransports, S_ "x:1  y:2")] = Err tt /\
  parse_line [(AMulti MFile, S_ "a"); (AListed LProviderTags, S_ "a,,b")] = Err tt.
Proof. vm_compute. repeat split. Qed.
(** A port that is too large is no usage error. *)
Example C123_example_panic : parse_line [(AMulti MTransports, S_ "http:70000"); (AMulti MFile, S_ "a")] = Panic /\
  parse_line [(AMulti MFile, S_ "a"); (ASingle SPort, S_ "70000")] = Err tt.
Proof. split; reflexivity. Qed.
Example C123_example_password : exists o, parse_line [(AMulti MUrl, S_ "http://a"); (ASingle SPassword, S_ "p")] = Ok o /\ cli_auth o = None.
Proof. eexists. split; vm_compute; reflexivity. Qed.
