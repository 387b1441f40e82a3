(** Cases for C77-C80, and what may surprise. *)
From Coq Require Import Ascii String List Arith NArith ZArith Lia Bool Sorted.
From Verif Require Import Base PathExp Json Text MatchingRules Matchers JsonCompare Headers Query ContentType Http Merge
  VerifierClient Verifier SpecVerifier PropVerifier PropVerifier2.
Import ListNotations.
Open Scope N_scope.

(** C78 (why): for an asynchronous message the status of the answer plays no part: a server error with the right body passes. *)
Definition other_status (f : N -> N) (env : environment) : environment :=
  mkEnv (handler env) (fun h n => option_map (fun r => mkNR (f (nr_status r)) (nr_headers r) (nr_body r)) (provider_answer env h n)).
Theorem C78_why_message_status : forall w x cx env st i h f, is_message i = true ->
  verify_interaction w x cx (other_status f env) st i h = verify_interaction w x cx env st i h.
Proof.
  intros w x cx env st i h f M.
  assert (C : forall l id setup h, call_handlers (other_status f env) id setup l h = call_handlers env id setup l h).
  { induction l as [|s l IH]; intros id setup h0; [reflexivity|]. cbn [call_handlers]. unfold rbind, execute_state_change. cbn [bind fst snd handler other_status].
    rewrite IH. reflexivity. }
  assert (E : forall setup h, execute_provider_states (other_status f env) i setup h = execute_provider_states env i setup h).
  { intros setup h0. unfold execute_provider_states, rbind. rewrite C. reflexivity. }
  assert (V : forall e d h, verify_message w x cx (other_status f env) st i e d h = verify_message w x cx env st i e d h).
  { intros e d h0. unfold verify_message, rbind, make_provider_request. cbv zeta.
    match goal with |- context [create_native_request ?a ?b ?c ?d ?e ?f] => destruct (create_native_request a b c d e f) as [n|] end; [|reflexivity].
    cbn [bind fst snd other_status provider_answer]. destruct (provider_answer env h0 (with_defaults d n)) as [a|]; [|reflexivity]. reflexivity. }
  unfold verify_interaction. destruct (if s_builds st then _ else _) as [d|]; [|reflexivity]. unfold rbind. rewrite E.
  destruct (execute_provider_states env i true h) as [[[m|] h1]|err|]; cbn [bind fst snd]; try reflexivity.
  assert (V3 : forall c d h, verify_v3_interaction w x cx (other_status f env) st i c d h = verify_v3_interaction w x cx env st i c d h).
  { intros c d0 h0. unfold verify_v3_interaction, as_v4_http, as_v4_sync_message, rbind, rret. rewrite M.
    destruct i as [r0|m0|v0]; [discriminate| |].
    - cbn [as_v4 v_payload bind fst snd as_message]. rewrite V. reflexivity.
    - cbn [as_v4 is_message] in *. destruct (v_payload v0) eqn:P; try discriminate. cbn [bind fst snd as_message]. rewrite P, V. reflexivity. }
  rewrite V3. destruct (verify_v3_interaction w x cx env st i (state_context i m) d h1) as [[r h2]|err|]; cbn [bind fst snd]; try reflexivity.
Qed.

(** C79: an interaction that is pending never makes a run fail: only the failures of the others count. *)
Theorem C79_pending : forall w x cx env st f consumers publish npe sources h ok e h',
  verify_provider w x cx env st f consumers publish npe sources h = Ok ((ok, e), h') ->
  (forall p, In (Loaded p) (fetch_pacts sources consumers) -> lp_pending p = Some true) ->
  (forall nf, In (LoadError nf) (fetch_pacts sources consumers) -> nf = true /\ npe = false) ->
  ok = true /\ e_errors e = [].
Proof.
  intros w x cx env st f consumers publish npe sources h ok e h' H P L.
  assert (K : ok = negb (nonempty (e_errors e))).
  { unfold verify_provider, rbind in H.
    destruct (verify_pacts w x cx env st f publish npe (fetch_pacts sources consumers) execution_new h) as [[e1 h1]|err|]; cbn [bind fst snd rret] in H; try discriminate.
    injection H as <- <- <-. reflexivity. }
  apply C79_run in H. destruct H as (evs & all & _ & W & E1 & _ & E3 & Iff).
  assert (T : ok = true).
  { apply Iff. rewrite E3. clear -W P L. revert P L. induction W as [h0|h0 p l evs evs' rs all PV W IH|h0 nf l evs all W IH]; intros P L.
    - split; [intros nf rs []|intros r []].
    - destruct IH as [A B]; [intros p0 I; apply P; right; exact I|intros nf I; apply L; right; exact I|]. split.
      + intros nf rs0 [E|I]; [discriminate|]. exact (A nf rs0 I).
      + intros r I. cbn [flat_map snd] in I. apply in_app_iff in I. destruct I as [I|I]; [|exact (B r I)]. right.
        destruct PV as (kept & evs1 & _ & _ & R & _). rewrite (P p (or_introl eq_refl)) in R. cbn [orb] in R.
        clear -R I. induction R as [|i r0 kept rs0 Q R IH]; [destruct I|]. destruct I as [->|I]; [|exact (IH I)]. apply Q.
    - destruct IH as [A B]; [intros p0 I; apply P; right; exact I|intros nf0 I; apply L; right; exact I|]. split.
      + intros nf0 rs0 [E|I]; [injection E as <- <-; apply L; left; reflexivity|]. exact (A nf0 rs0 I).
      + exact B. }
  split; [exact T|]. rewrite T in K. destruct (e_errors e); [reflexivity|discriminate].
Qed.

(** ** Cases that meet the hypotheses *)
Definition ex_cx : client_externals := mkCx (fun _ => true) (fun n => Some n) (fun _ => true) (fun _ => []).
Definition ex_provider : provider_info := mkProvider (S_ "P") (S_ "http") (S_ "localhost") (Some 80) (S_ "/") [].
Definition ex_settings (teardown : bool) : settings :=
  mkSettings ex_provider [] None teardown true (fun _ r ctx => mkReq (req_method r) (req_path r ++ flat_map fst ctx) (req_query r) (req_headers r) (req_body r) (req_rules r)) (fun _ => JNull).
Definition ex_verifier_externals : externals := mkExt (fun _ => None) (fun _ => mkCT (S_ "text") (S_ "plain") [] None) (fun _ => None) (fun _ => None) (fun _ => None)
  (fun _ _ => true) (fun _ _ _ => []) (fun _ _ _ _ _ => []).
(** Handlers that answer with an id; a provider with the status 200 for the path /a (with the id) and 404 else. *)
Definition ex_env : environment := mkEnv
  (fun _ _ s _ => if str_eqb (st_name s) (S_ "broken") then None else Some [(S_ "id", JStr (S_ "7"))])
  (fun _ n => Some (mkNR (if str_eqb (n_url n) (S_ "http://localhost:80/aidk") then 200 else 404) [] [])).
Definition ex_interaction (path : str) (states : list pstate) : interaction :=
  IHttp (mkRRI (Some path) path states (mkReq (S_ "GET") path None None BMissing []) (mkResp 200 None BMissing [])).
Definition ex_good : interaction := ex_interaction (S_ "/a") [mkState (S_ "up") [(S_ "k", JNull); (S_ "id", JNull)]].
Definition ex_bad : interaction := ex_interaction (S_ "/b") [mkState (S_ "up") []].
Definition ex_broken : interaction := ex_interaction (S_ "/a") [mkState (S_ "up") [(S_ "k", JNull)]; mkState (S_ "broken") []; mkState (S_ "up") []].

Example C78_example : forall w,
  (exists h', verify_interaction w ex_verifier_externals ex_cx ex_env (ex_settings true) ex_good [] = Ok (None, h') /\
     map (fun e => match e with EState _ _ b => Some b | _ => None end) h' = [Some true; None; Some false]) /\
  (exists ms h', verify_interaction w ex_verifier_externals ex_cx ex_env (ex_settings false) ex_bad [] = Ok (Some (RMismatches ms (Some (S_ "/b"))), h')) /\
  (exists h', verify_interaction w ex_verifier_externals ex_cx ex_env (ex_settings true) ex_broken [] = Ok (Some (RError KindSetup (Some (S_ "/a"))), h') /\
     map (fun e => match e with EState _ _ b => Some b | _ => None end) h' = [Some true; Some true; Some true]).
Proof.
  intros w. split; [|split].
  - eexists. split; [vm_compute; reflexivity|]. reflexivity.
  - eexists. eexists. vm_compute. reflexivity.
  - eexists. split; [vm_compute; reflexivity|]. reflexivity.
Qed.

(** Two pacts of a broker and one that could not be found: the one that fails is pending. *)
Definition ex_pact (pending : option bool) (is : list interaction) : loaded_pact :=
  mkLoaded (mkWho (S_ "C") (S_ "P")) is pending
    [[(S_ "when", S_ "after_verification:success_false_published_false"); (S_ "text", S_ "failed")]] (SBroker (S_ "b")).
Example C79_example : forall w, regex_match w (S_ "/a") (S_ "/a") = Some true -> regex_match w (S_ "/a") (S_ "/b") = Some false ->
  (exists e h', verify_provider w ex_verifier_externals ex_cx ex_env (ex_settings false) FNone [S_ "C"] (Some (Some (S_ "1"))) false
     [[Loaded (ex_pact None [ex_good]); LoadError true]; [Loaded (ex_pact (Some true) [ex_bad])]] [] = Ok ((true, e), h') /\
     length (e_results e) = 2%nat /\ length (e_pending e) = 1%nat /\ length (filter is_publish h') = 2%nat) /\
  (exists e h', verify_provider w ex_verifier_externals ex_cx ex_env (ex_settings false) (FDescription (S_ "/a")) [] None false
     [[Loaded (ex_pact (Some false) [ex_bad; ex_good])]] [] = Ok ((true, e), h') /\
     length (e_results e) = 1%nat /\ e_shown e = [S_ "failed"]) /\
  (exists e h', verify_provider w ex_verifier_externals ex_cx ex_env (ex_settings false) FNone [] None false
     [[Loaded (ex_pact None [ex_bad; ex_good])]] [] = Ok ((false, e), h')).
Proof.
  intros w R1 R2. split; [|split].
  - eexists. eexists. split; [vm_compute; reflexivity|]. repeat split; reflexivity.
  - unfold verify_provider, verify_pacts. cbn [fetch_pacts]. unfold fetch_pacts, rbind. cbn [concat app filter filter_consumers nonempty negb orb].
    unfold verify_pact. cbn [lp_interactions ex_pact]. unfold rbind. cbn [verify_interactions]. unfold rbind, lift, filter_interaction, match_description, is_match.
    cbn [has_description has_state andb f_description]. change (i_desc ex_bad) with (S_ "/b"). change (i_desc ex_good) with (S_ "/a"). rewrite R1, R2.
    cbn [bind fst snd]. eexists. eexists. split; [vm_compute; reflexivity|]. split; reflexivity.
  - eexists. eexists. vm_compute. reflexivity.
Qed.
