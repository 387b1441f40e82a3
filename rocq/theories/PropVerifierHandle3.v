(** C111: the command line; what depends on the order of the calls; cases that meet the hypotheses. *)
From Coq Require Import Ascii String List Arith NArith ZArith Lia Bool.
From Verif Require Import Base PathExp Json Text TextProofs MatchingRules Matchers Http Merge VerifierClient Verifier SpecVerifier PropVerifier Broker VerifierHandle SpecVerifierHandle PropVerifierHandle PropVerifierHandle2.
Import ListNotations.
Open Scope N_scope.

(** ** The command line *)
(** A header is a name without "=", "=" and a value. *)
Definition header_text (t : str) (k v : str) : Prop := t = k ++ [61] ++ v /\ ~ In 61 k.
(** The value a name has: the last one given. *)
Definition header_given (l : list str) (k : str) (v : option str) : Prop :=
  match v with
  | Some v => exists l1 t l2, l = l1 ++ t :: l2 /\ header_text t k v /\ (forall t' v', In t' l2 -> ~ header_text t' k v')
  | None => forall t' v', In t' l -> ~ header_text t' k v'
  end.
Lemma header_text_iff : forall t k v, header_text t k v <-> split_once 61 t = Some (k, v).
Proof.
  intros t k v. split; [intros [-> NI]; exact (split_once_app 61 k v NI)|]. intro H. destruct (split_once_some 61 t k v H) as [E NI]. split; [exact E | exact NI].
Qed.
Lemma cli_headers_iff : forall l,
  (cli_headers l [] = None <-> exists t, In t l /\ ~ In 61 t) /\
  (forall m, cli_headers l [] = Some m -> forall k, header_given l k (obj_get k m)).
Proof.
  intro l. assert (G : forall l m0, (cli_headers l m0 = None <-> exists t, In t l /\ ~ In 61 t) /\
    (forall m, cli_headers l m0 = Some m -> forall k, header_given l k (obj_get k m) \/ ((forall t' v', In t' l -> ~ header_text t' k v') /\ obj_get k m = obj_get k m0))).
  { clear l. induction l as [|t l IH]; intro m0.
    - cbn [cli_headers]. split; [split; [discriminate | intros (t & [] & _)]|]. intros m H k. injection H as <-. right. split; [intros t' v' [] | reflexivity].
    - cbn [cli_headers]. destruct (split_once 61 t) as [[k0 v0]|] eqn:E.
      + destruct (IH (obj_insert k0 v0 m0)) as [I1 I2]. split.
        * rewrite I1. split; intros (u & J & NI); [exists u; split; [right; exact J | exact NI]|]. destruct J as [<-|J]; [|exists u; auto]. apply split_once_none in NI. congruence.
        * intros m H k. destruct (I2 m H k) as [A|[A B]].
          -- destruct (obj_get k m) as [v|] eqn:O; cbn [header_given] in A |- *.
             ++ left. destruct A as (l1 & u & l2 & -> & X & Y). exists (t :: l1), u, l2. split; [reflexivity|]. split; assumption.
             ++ assert (C : k = k0 \/ k <> k0) by (destruct (str_eqb_spec k k0); auto). destruct C as [->|NE].
                ** exfalso. clear -H O. revert H O. assert (Q : forall ts m1 m2, cli_headers ts m1 = Some m2 -> obj_get k0 m1 <> None -> obj_get k0 m2 <> None).
                   { induction ts as [|x ts IHl]; intros m1 m2 H NN; cbn [cli_headers] in H; [injection H as <-; exact NN|]. destruct (split_once 61 x) as [[a b]|]; [|discriminate]. apply (IHl _ _ H). rewrite obj_insert_get. destruct (str_eqb k0 a); [discriminate | exact NN]. }
                   intros H O. exact (Q l (obj_insert k0 v0 m0) m H (fun Z : obj_get k0 (obj_insert k0 v0 m0) = None => ltac:(rewrite obj_insert_get, str_eqb_refl in Z; discriminate Z)) O).
                ** left. intros t' v' [<-|J] HT; [apply header_text_iff in HT; congruence | exact (A t' v' J HT)].
          -- rewrite obj_insert_get in B. destruct (str_eqb_spec k k0) as [->|NE].
             ++ left. rewrite B. exists [], t, l. split; [reflexivity|]. split; [apply header_text_iff; exact E | exact A].
             ++ right. split; [|exact B]. intros t' v' [<-|J] HT; [apply header_text_iff in HT; congruence | exact (A t' v' J HT)].
      + split; [|discriminate]. split; [|reflexivity]. intros _. exists t. split; [left; reflexivity | apply split_once_none, E]. }
  destruct (G l []) as [G1 G2]. split; [exact G1|]. intros m H k. destruct (G2 m H k) as [A|[A B]]; [exact A|]. rewrite B. exact A.
Qed.
(** What the options say about the run. *)
Definition given_or {A} (o : option A) (default v : A) : Prop := (forall x, o = Some x -> v = x) /\ (o = None -> v = default).
Record configured (o : options) (c : config) : Prop := {
  cf_name : given_or (o_provider_name o) (S_ "provider") (p_name (c_provider c));
  cf_protocol : given_or (o_transport o) (S_ "http") (p_protocol (c_provider c));
  cf_host : given_or (o_hostname o) (S_ "localhost") (p_host (c_provider c));
  cf_port : p_port (c_provider c) = o_port o;
  cf_path : given_or (o_base_path o) [] (p_path (c_provider c));
  cf_transports : Forall2 (fun t u => let '(name, port, path) := t in u = mkTransport name (Some port) path None) (o_transports o) (p_transports (c_provider c));
  cf_filter : forall w i, selected w (c_filter c) i <-> asked_for w (o_filter_description o) (o_filter_state o) (o_filter_no_state o) i;
  cf_consumers : c_consumers c = o_filter_consumers o;
  cf_ssl : c_no_ssl c = o_no_ssl o;
  cf_timeout : given_or (o_timeout o) 5000 (c_timeout c);
  cf_coloured : c_coloured c = true <-> o_no_colour o = false;
  cf_no_pacts : c_no_pacts_is_error c = true <-> o_ignore_no_pacts o = false;
  cf_publish : (o_publish o = false -> c_publish c = None) /\
    (o_publish o = true -> c_publish c = Some (mkPublish (o_provider_version o) (o_build_url o) (o_provider_tags o) (o_provider_branch o)));
  cf_state_url : c_state_url c = o_state_url o;
  cf_teardown : c_teardown c = o_state_teardown o;
  cf_state_body : c_state_body c = true <-> o_state_as_query o = false;
  cf_headers : forall k, header_given (o_custom_headers o) k (obj_get k (c_headers c));
  cf_sources : cli_sources o = Some (c_sources c) }.
(** The exit code: 3 for a header without "="; 2 if the run could not be made or a report not be written; else 0 or 1 by the result.
    The run is configured as the options say. *)
Theorem C111_exit_code : forall o run written code, cli_run o run written = Some code ->
  ((exists t, In t (o_custom_headers o) /\ ~ In 61 t) /\ code = 3) \/
  (exists c, configured o c /\
     ((exists e, run c = inr e /\ code = 2) \/
      (exists r, run c = inl r /\
         ((exists f, (o_json_file o = Some f \/ o_junit_file o = Some f) /\ written f r = false /\ code = 2) \/
          ((forall f, o_json_file o = Some f \/ o_junit_file o = Some f -> written f r = true) /\ (rp_result r = true /\ code = 0 \/ rp_result r = false /\ code = 1)))))).
Proof.
  intros o run written code H. unfold cli_run in H. destruct (cli_sources o) as [ss|] eqn:SRC; [|discriminate]. destruct (cli_headers_iff (o_custom_headers o)) as [A B].
  destruct (cli_headers (o_custom_headers o) []) as [m|]; [|injection H as <-; left; split; [apply A; reflexivity | reflexivity]].
  right. exists (cli_config o ss m). split.
  { assert (GO : forall (a : option str) d, given_or a d (or_else_text a d)) by (intros [x|] d; split; [intros y E; injection E as <-; reflexivity | discriminate | discriminate | reflexivity]).
    constructor; cbn [cli_config cli_provider c_provider c_sources c_filter c_consumers c_no_ssl c_timeout c_headers c_coloured c_no_pacts_is_error c_publish c_state_url c_teardown c_state_body p_name p_protocol p_host p_port p_path p_transports]; try apply GO; try reflexivity.
    - induction (o_transports o) as [|[[n pt] pa] l IH]; constructor; [reflexivity | exact IH].
    - intros w i. apply C111_filter_of_the_command_line.
    - destruct (o_timeout o); split; intros; cbn; congruence.
    - destruct (o_no_colour o); split; (discriminate || reflexivity).
    - destruct (o_ignore_no_pacts o); split; (discriminate || reflexivity).
    - split; intros ->; reflexivity.
    - destruct (o_state_as_query o); split; (discriminate || reflexivity).
    - exact (B m eq_refl).
    - exact SRC. }
  destruct (run (cli_config o ss m)) as [r|e]; [|left; exists e; split; [reflexivity | congruence]].
  right. exists r. split; [reflexivity|].
  destruct (match o_json_file o with Some f => negb (written f r) | None => false end) eqn:J.
  { left. destruct (o_json_file o) as [f|]; [|discriminate]. exists f. split; [left; reflexivity|]. split; [destruct (written f r); [discriminate | reflexivity] | congruence]. }
  destruct (match o_junit_file o with Some f => negb (written f r) | None => false end) eqn:U.
  { left. destruct (o_junit_file o) as [f|]; [|discriminate]. exists f. split; [right; reflexivity|]. split; [destruct (written f r); [discriminate | reflexivity] | congruence]. }
  right. split.
  - intros f [E|E]; rewrite E in *; [destruct (written f r); [reflexivity | discriminate J] | destruct (written f r); [reflexivity | discriminate U]].
  - injection H as <-. destruct (rp_result r); auto.
Qed.
(** A webhook's URL without that of the broker stops the program, before anything else. *)
Theorem C111_why_a_webhook_needs_a_broker : forall o run written, cli_run o run written = None <-> (exists u, o_webhook_url o = Some u) /\ o_broker_url o = None.
Proof.
  intros o run written. unfold cli_run, cli_sources. destruct (o_webhook_url o) as [u|].
  - destruct (o_broker_url o) as [b|]; cbn [option_map].
    + split; [|intros [_ Z]; discriminate]. destruct (cli_headers (o_custom_headers o) []) as [m|]; [|discriminate]. destruct (run _) as [r|e]; [|discriminate].
      destruct (match o_json_file o with Some f => negb (written f r) | None => false end); [discriminate|]. destruct (match o_junit_file o with Some f => negb (written f r) | None => false end); discriminate.
    + split; [|reflexivity]. intros _. split; [exists u; reflexivity | reflexivity].
  - split; [|intros [[x Z] _]; discriminate]. destruct (cli_headers (o_custom_headers o) []) as [m|]; [|discriminate]. destruct (run _) as [r|e]; [|discriminate].
    destruct (match o_json_file o with Some f => negb (written f r) | None => false end); [discriminate|]. destruct (match o_junit_file o with Some f => negb (written f r) | None => false end); discriminate.
Qed.
(** The authentication of all sources: a user goes before a token. *)
Definition cli_auth_given (o : options) (a : option http_auth) : Prop :=
  match a with
  | Some (AUser u p) => o_user o = Some u /\ o_password o = p
  | Some (AToken t) => o_user o = None /\ o_token o = Some t
  | Some ANone => False
  | None => o_user o = None /\ o_token o = None
  end.
(** Where the pacts come from without a webhook: the files, the directories, the URLs, and then the broker. *)
Theorem C111_command_line_sources : forall o, o_webhook_url o = None -> exists a brk,
  cli_auth_given o a /\
  cli_sources o = Some (map SrcFile (o_files o) ++ map SrcDir (o_dirs o) ++ map (fun u => SrcUrl u a) (o_urls o) ++ brk) /\
  (o_broker_url o = None -> brk = []) /\
  (forall url, o_broker_url o = Some url ->
     (o_selectors o = None -> o_consumer_tags o = None -> brk = [SrcBrokerUrl (text_or (o_provider_name o) []) url a]) /\
     (forall l, o_selectors o = Some l -> exists ss, selectors_given l ss /\
        brk = [SrcBroker (text_or (o_provider_name o) []) url (o_pending o) (o_wip_since o) (o_provider_tags o) (o_provider_branch o) ss a]) /\
     (forall ts, o_selectors o = None -> o_consumer_tags o = Some ts ->
        brk = [SrcBroker (text_or (o_provider_name o) []) url (o_pending o) (o_wip_since o) (o_provider_tags o) (o_provider_branch o)
                 (map (fun tag => mkSelector None (Some tag) None (Some true) None None None None None None None None) ts) a])).
Proof.
  intros o W. exists (cli_auth o). unfold cli_sources. rewrite W. eexists. split; [|split; [reflexivity|]].
  - unfold cli_auth. destruct (o_user o) as [u|] eqn:U; [split; [exact U | reflexivity]|]. destruct (o_token o) as [t|] eqn:TT; cbn [option_map cli_auth_given]; split; assumption.
  - assert (N0 : or_nothing (o_provider_name o) = text_or (o_provider_name o) []) by (destruct (o_provider_name o); reflexivity). rewrite N0. split.
    + intros ->. reflexivity.
    + intros url ->. split; [|split].
      * intros -> ->. reflexivity.
      * intros l ->. exists (json_to_selectors l). split; [apply selectors_iff; reflexivity | reflexivity].
      * intros ts -> ->. reflexivity.
Qed.
(** So without selectors or tags, what was said about pending pacts, work in progress, tags and branches does not matter. *)
Definition other_selection (o : options) (pending : bool) (wip : option str) : options :=
  mkOptions (o_files o) (o_dirs o) (o_urls o) (o_broker_url o) (o_webhook_url o) (o_user o) (o_password o) (o_token o) (o_hostname o) (o_port o) (o_transport o) (o_transports o)
    (o_provider_name o) (o_base_path o) (o_state_url o) (o_state_as_query o) (o_state_teardown o) (o_filter_description o) (o_filter_state o) (o_filter_no_state o) (o_filter_consumers o)
    (o_publish o) (o_provider_version o) (o_build_url o) (o_provider_tags o) (o_provider_branch o) (o_selectors o) (o_consumer_tags o) pending wip
    (o_no_ssl o) (o_timeout o) (o_custom_headers o) (o_no_colour o) (o_ignore_no_pacts o) (o_json_file o) (o_junit_file o).
Theorem C111_why_pending_needs_selectors : forall o run written pending wip, o_selectors o = None -> o_consumer_tags o = None ->
  cli_run (other_selection o pending wip) run written = cli_run o run written.
Proof.
  intros o run written pending wip S0 T0. unfold cli_run, cli_sources, cli_config, cli_auth, cli_provider, cli_filter, other_selection.
  cbn [o_files o_dirs o_urls o_broker_url o_webhook_url o_user o_password o_token o_hostname o_port o_transport o_transports o_provider_name o_base_path o_state_url o_state_as_query o_state_teardown
       o_filter_description o_filter_state o_filter_no_state o_filter_consumers o_publish o_provider_version o_build_url o_provider_tags o_provider_branch o_selectors o_consumer_tags o_pending o_wip_since
       o_no_ssl o_timeout o_custom_headers o_no_colour o_ignore_no_pacts o_json_file o_junit_file]. rewrite S0, T0. reflexivity.
Qed.

(** ** The order of the calls *)
Section Order.
Variable lossy : list N -> str.
Variable parse_json : str -> option json.
(** A source keeps the provider's name it was added with; setting the provider later does not change it. *)
Theorem C111_why_the_provider_comes_first : forall h cs1 cs2,
  (forall c, In c cs2 -> exists n s ho port p, c = CSetProviderInfo n s ho port p) ->
  c_sources (vh_config (run_calls lossy parse_json h (cs1 ++ cs2))) = c_sources (vh_config (run_calls lossy parse_json h cs1)).
Proof.
  intros h cs1 cs2 H. rewrite run_calls_app. set (h1 := run_calls lossy parse_json h cs1). clearbody h1. revert h1. induction cs2 as [|c cs2 IH]; intro h1; [reflexivity|].
  cbn [run_calls fold_left]. destruct (H c (or_introl eq_refl)) as (n & s & ho & port & p & ->). etransitivity; [exact (IH (fun c J => H c (or_intror J)) _)|]. reflexivity.
Qed.
(** Setting the provider drops the transports added before. *)
Theorem C111_why_transports_come_after : forall h cs n s ho port p, exists t,
  p_transports (c_provider (vh_config (run_calls lossy parse_json h (cs ++ [CSetProviderInfo n s ho port p])))) = [t].
Proof. intros h cs n s ho port p. rewrite run_calls_app. eexists. reflexivity. Qed.
End Order.

(** ** Cases *)
Definition c (t : string) : cstr := Some (S_ t).
Definition lossy0 (b : list N) : str := S_ "?".
Definition parse0 (s : str) : option json := if str_eqb s (S_ "S") then Some (JObj [(S_ "latest", JBool true); (S_ "tag", JNull); (S_ "unknown", JBool true)]) else if str_eqb s (S_ "L") then Some (JObj [(S_ "latest", JStr (S_ "true"))]) else None.
Definition calls0 : list call :=
  [CAddTransport (c "message") 9000 None None; CBrokerSource (c "http://b") None None None; CSetProviderInfo (c "p1") None (c "") 0 (c "");
   CAddTransport (c "message") 9001 (c "/m") (c "https"); CAddFileSource (c "a.json"); CAddFileSource None; CSetFilterInfo (c "d") None 1; CSetFilterInfo None (c "s") 1;
   CBrokerSourceWithSelectors (c "http://b") (c "u") (c "") (c "t") 1 (c "2024") (Some [c "x"; None; c ""; c "y"]) None (Some [c "S"; c "L"]) (Some [c "ignored"]);
   CAddCustomHeader (c "k") (c "1"); CAddCustomHeader (c "k") (c "2"); CSetVerificationOptions 1 10].
Definition after0 : config := vh_config (run_calls lossy0 parse0 (new_handle None) calls0).
Example C111_case :
  c_provider after0 = mkProvider (S_ "p1") (S_ "http") (S_ "localhost") None (S_ "/")
    [mkTransport (S_ "http") None (Some (S_ "/")) (Some (S_ "http")); mkTransport (S_ "message") (Some 9001) (Some (S_ "/m")) (Some (S_ "https"))] /\
  c_sources after0 = [SrcBroker (S_ "provider") (S_ "http://b") false None [] None [] None; SrcFile (S_ "a.json");
    SrcBroker (S_ "p1") (S_ "http://b") true (Some (S_ "2024")) [S_ "x"; S_ "y"] None [mkSelector None None None (Some true) None None None None None None None None] (Some (AUser (S_ "u") None))] /\
  c_filter after0 = FState (S_ "s") /\ c_headers after0 = [(S_ "k", S_ "2")] /\ c_no_ssl after0 = true /\ c_timeout after0 = 10 /\
  snd (step lossy0 parse0 (new_handle None) (CBrokerSourceWithSelectors (c "u") None None None 0 None None None (Some [c "S"; c "x"]) None)) = Some (-1)%Z /\
  selector_json (mkSelector None None None (Some true) None None None None None None None None) = JObj [(S_ "latest", JBool true)].
Proof. repeat match goal with |- _ /\ _ => split end; vm_compute; reflexivity. Qed.
Example C111_case_history : exists l, history lossy0 parse0 calls0 l /\ amounts_to l after0.
Proof. destruct (C111_configuration lossy0 parse0 None calls0) as ([l H] & G & _). exists l. split; [exact H | exact (G l H)]. Qed.
Example C111_case_strip :
  strip_ansi ([27; 91; 49; 59; 51; 49; 109] ++ S_ "red" ++ [27; 91; 48; 109] ++ [27; 91] ++ S_ "x") = S_ "red" ++ [27; 91] ++ S_ "x" /\
  escape_code [27; 91; 49; 59; 51; 49; 109].
Proof.
  split; [vm_compute; reflexivity|]. apply (esc [] [[49]; [51; 49]] 109); [left; reflexivity | discriminate | | cbn; tauto].
  repeat constructor; try discriminate; lia.
Qed.
(** A run that could not be made: the code says so, the document does not. *)
Example C111_case_failed : forall app,
  let r := step lossy0 parse0 (new_handle app) (CExecute (fun _ => inr (S_ "no broker"))) in
  snd r = Some 2%Z /\ entry (S_ "result") (verifier_json (fst r)) (JBool true) /\ verifier_output (fst r) 0 = Some (S_ "Verification execution failed: no broker").
Proof.
  intro app. cbv zeta. split; [reflexivity|]. split; [|vm_compute; reflexivity]. eexists. split; [reflexivity|]. vm_compute. reflexivity.
Qed.
