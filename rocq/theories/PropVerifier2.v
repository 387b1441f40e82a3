(** C77-C80, continued: what follows for a whole run. *)
From Coq Require Import Ascii String List Arith NArith ZArith Lia Bool Sorted.
From Verif Require Import Base PathExp Json Text MatchingRules Matchers JsonCompare Headers Query ContentType Http Merge
  VerifierClient Verifier SpecVerifier PropVerifier.
Import ListNotations.
Open Scope N_scope.

Section Runs.
Variable w : world.
Variable x : externals.
Variable cx : client_externals.
Variable env : environment.
Variable st : settings.

(** C77: in a run, of every pact exactly the selected interactions are verified and reported, once each and in order. *)
Theorem C77_selected_are_verified : forall f consumers publish npe sources h ok e h',
  verify_provider w x cx env st f consumers publish npe sources h = Ok ((ok, e), h') ->
  exists parts, e_results e = concat (map snd parts) /\ map fst parts = flat_map (fun l => match l with Loaded p => [p] | _ => [] end) (fetch_pacts sources consumers) /\
  forall p rs, In (p, rs) parts -> exists kept, picked (selected w f) (lp_interactions p) kept /\
    Forall2 (reported (lp_who p) (match lp_pending p with Some b => b | None => false end)) kept rs.
Proof.
  intros f consumers publish npe sources h ok e h' H. apply C79_run in H. destruct H as (evs & all & _ & W & _ & _ & R & _). rewrite R. clear R.
  exists (flat_map (fun a => match fst a with Loaded p => [(p, snd a)] | LoadError _ => [] end) all).
  induction W as [h0|h0 p l evs evs' rs all P W IH|h0 nf l evs all W IH].
  - split; [reflexivity|]. split; [reflexivity|]. intros p rs [].
  - destruct IH as (E1 & E2 & E3). cbn [flat_map fst snd app map concat]. rewrite E1, E2. split; [reflexivity|]. split; [reflexivity|].
    intros p0 rs0 [E|I]; [|exact (E3 p0 rs0 I)]. injection E as <- <-. destruct P as (kept & evs1 & P1 & _ & P2 & _). exists kept. split; assumption.
  - destruct IH as (E1 & E2 & E3). cbn [flat_map fst snd app map concat]. split; [exact E1|]. split; [exact E2|exact E3].
Qed.

Lemma turn_no_publish : forall h l evs rs, verified_in_turn w x cx env st h l evs rs -> filter is_publish evs = [].
Proof.
  intros h l evs rs T. induction T as [h|h i l evs evs' r rs V T IH]; [reflexivity|]. rewrite filter_app, IH, app_nil_r.
  assert (C : forall setup, filter is_publish (calls i setup) = []).
  { intro setup. unfold calls. induction (handled_states i) as [|s k IHk]; [reflexivity|]. exact IHk. }
  assert (K : forall d c h evs r, checked w x cx env st d c h i evs r -> filter is_publish evs = []).
  { intros d c h0 evs0 r0 K. apply checked_one in K. destruct K as [[-> _]|[n ->]]; reflexivity. }
  destruct V; rewrite ?filter_app, ?C; cbn [app]; rewrite ?app_nil_r; try reflexivity; eapply K; eassumption.
Qed.
Lemma pacts_published : forall f b h l evs all, pacts_verified w x cx env st f b h l evs all ->
  map fst all = l /\ filter is_publish evs = flat_map (to_publish b) all.
Proof.
  intros f b h l evs all W. induction W as [h0|h0 p l evs evs' rs all P W IH|h0 nf l evs all W IH]; [split; reflexivity| |].
  - destruct IH as [IH1 IH2]. split; [cbn [map fst]; rewrite IH1; reflexivity|]. rewrite filter_app, IH2. cbn [flat_map]. f_equal.
    destruct P as (kept & evs1 & _ & T & _ & ->). rewrite filter_app, (turn_no_publish _ _ _ _ T). unfold to_publish. cbn [fst snd app].
    destruct b, (lp_source p), (lp_interactions p); reflexivity.
  - destruct IH as [IH1 IH2]. split; [cbn [map fst]; rewrite IH1; reflexivity|]. exact IH2.
Qed.
(** C80: the results are published for exactly the pacts of a broker that have interactions, each once, with the results of that pact,
    also when no interaction was selected; nothing is published without options for it. *)
Theorem C80_published : forall f consumers publish npe sources h ok e h',
  verify_provider w x cx env st f consumers publish npe sources h = Ok ((ok, e), h') ->
  exists evs all, h' = h ++ evs /\ map fst all = fetch_pacts sources consumers /\ e_results e = flat_map snd all /\
    filter is_publish evs = flat_map (to_publish (match publish with Some _ => true | None => false end)) all.
Proof.
  intros f consumers publish npe sources h ok e h' H. apply C79_run in H. destruct H as (evs & all & E & W & _ & _ & R & _).
  exists evs, all. apply pacts_published in W. destruct W as [W1 W2]. repeat split; assumption.
Qed.

(** C80: the verification of a pact from a broker panics when results are to be published without a version of the provider. *)
Theorem C80_why_version_needed : forall f p e h, nonempty (lp_interactions p) = true -> is_broker (lp_source p) = true ->
  forall r, verify_pact w x cx env st f (Some None) p e h <> Ok r.
Proof.
  intros f p e h N B r H. unfold verify_pact in H. destruct (lp_interactions p) as [|i l]; [discriminate|].
  unfold rbind in H at 1. destruct (verify_interactions w x cx env st f (lp_who p) _ (i :: l) h) as [[rs h1]|err|]; cbn [bind fst snd] in H; try discriminate.
  unfold rbind, publish_result in H. destruct (lp_source p); [discriminate|discriminate B].
Qed.

Lemma interactions_total : forall f who pending, filter_ok w f ->
  (forall e a, exists ms, match_response w x e a = Ok ms) -> (forall e a, exists ms, match_message w x e a = Ok ms) ->
  forall l h, exists rs h', verify_interactions w x cx env st f who pending l h = Ok (rs, h').
Proof.
  intros f who pending F M1 M2. induction l as [|i l IH]; intro h; [eexists; eexists; reflexivity|]. cbn [verify_interactions]. unfold rbind at 1, lift.
  destruct (C77_filter_decides w f i F) as [b ->]. cbn [bind fst snd]. destruct b; [|apply IH].
  unfold rbind at 1. destruct (C78_no_panic w x cx env st i h M1 M2) as (r & h1 & ->). cbn [bind fst snd].
  unfold rbind. destruct (IH h1) as (rs & h2 & ->). eexists; eexists; reflexivity.
Qed.
(** C80: that apart, and given that the patterns are regular expressions and comparing comes to an end, a run always finishes. *)
Theorem C80_run_finishes : forall f consumers publish npe sources h,
  filter_ok w f -> (forall e a, exists ms, match_response w x e a = Ok ms) -> (forall e a, exists ms, match_message w x e a = Ok ms) ->
  publish <> Some None -> exists ok e h', verify_provider w x cx env st f consumers publish npe sources h = Ok ((ok, e), h').
Proof.
  intros f consumers publish npe sources h F M1 M2 V. unfold verify_provider.
  assert (P : forall p e h, exists e' h', verify_pact w x cx env st f publish p e h = Ok (e', h')).
  { intros p e h0. unfold verify_pact. destruct (lp_interactions p) as [|i l]; [eexists; eexists; reflexivity|]. unfold rbind at 1.
    destruct (interactions_total f (lp_who p) (match lp_pending p with Some b => b | None => false end) F M1 M2 (i :: l) h0) as (rs & h1 & ->). cbn [bind fst snd].
    destruct publish as [[v|]|]; [|congruence|eexists; eexists; reflexivity]. unfold rbind, publish_result. destruct (lp_source p); eexists; eexists; reflexivity. }
  assert (Q : forall l e h, exists e' h', verify_pacts w x cx env st f publish npe l e h = Ok (e', h')).
  { induction l as [|[p|nf] l IH]; intros e h0; cbn [verify_pacts]; [eexists; eexists; reflexivity| |apply IH].
    unfold rbind. destruct (P p e h0) as (e' & h1 & ->). cbn [bind fst snd]. apply IH. }
  unfold rbind. destruct (Q (fetch_pacts sources consumers) execution_new h) as (e' & h1 & ->). eexists; eexists; eexists; reflexivity.
Qed.

(** ** Notices *)
Lemma none_nonempty : forall A (l : list A), none l = negb (nonempty l).
Proof. destruct l; reflexivity. Qed.
Lemma shown_step : forall p stage e, e_shown (process_notices p stage e) = e_shown e ++ texts_for stage p.
Proof.
  intros p stage e. unfold process_notices, texts_for, or_nothing. destruct (lp_pending p); [reflexivity|]. rewrite app_nil_r. reflexivity.
Qed.
Lemma pact_shown : forall f publish p e h e' h' npe earlier, verify_pact w x cx env st f publish p e h = Ok (e', h') ->
  e_errors e = flat_map (counted npe) earlier -> e_pending e = flat_map not_counted earlier ->
  exists rs, e_errors e' = flat_map (counted npe) (earlier ++ [(Loaded p, rs)]) /\ e_pending e' = flat_map not_counted (earlier ++ [(Loaded p, rs)]) /\
    e_results e' = e_results e ++ rs /\
    e_shown e' = e_shown e ++ texts_for (S_ "before_verification") p ++
      (if none (lp_interactions p) then []
       else texts_for (stage_after (publishing publish) (flat_map (counted npe) (earlier ++ [(Loaded p, rs)])) (flat_map not_counted (earlier ++ [(Loaded p, rs)]))) p).
Proof.
  intros f publish p e h e' h' npe earlier H E1 E2. unfold verify_pact in H.
  set (e1 := process_notices p before_verification e) in *.
  assert (K : e_errors e1 = e_errors e /\ e_pending e1 = e_pending e /\ e_results e1 = e_results e) by apply notices_keep.
  assert (K4 : e_shown e1 = e_shown e ++ texts_for (S_ "before_verification") p) by apply shown_step.
  clearbody e1. destruct K as (K1 & K2 & K3).
  destruct (lp_interactions p) as [|i0 l0] eqn:L.
  - injection H as <- <-. exists []. cbn [none]. rewrite !flat_map_app, !app_nil_r, K1, K2, K3, K4, E1, E2. cbn [flat_map counted not_counted fst snd].
    rewrite ?app_nil_r. repeat split; reflexivity.
  - unfold rbind at 1 in H.
    destruct (verify_interactions w x cx env st f (lp_who p) (match lp_pending p with Some b => b | None => false end) (i0 :: l0) h)
      as [[rs h1]|err|] eqn:V; cbn [bind fst snd] in H; try discriminate. exists rs.
    rewrite !flat_map_app. cbn [flat_map]. rewrite !app_nil_r, <- (failures_false p npe), <- (failures_true p), <- E1, <- E2, <- K1, <- K2.
    set (e2 := mkExec (e_errors e1 ++ failures false rs) (e_pending e1 ++ failures true rs) (e_results e1 ++ rs) (e_notices e1) (e_shown e1)) in *.
    assert (Fin : forall stage e3, e3 = process_notices p stage e2 ->
      e_errors e3 = e_errors e1 ++ failures false rs /\ e_pending e3 = e_pending e1 ++ failures true rs /\ e_results e3 = e_results e ++ rs /\
      e_shown e3 = e_shown e ++ texts_for (S_ "before_verification") p ++ texts_for stage p).
    { intros stage e3 ->. destruct (notices_keep p stage e2) as (A & B & C). rewrite A, B, C, shown_step. subst e2. cbn [e_errors e_pending e_results e_shown].
      rewrite K3, K4, <- app_assoc. auto. }
    change (e_errors e1 ++ failures false rs) with (e_errors e2). change (e_pending e1 ++ failures true rs) with (e_pending e2).
    change (e_errors e1 ++ failures false rs) with (e_errors e2) in Fin. change (e_pending e1 ++ failures true rs) with (e_pending e2) in Fin.
    clearbody e2. cbn [none]. unfold stage_after. rewrite !none_nonempty.
    destruct publish as [version|].
    + unfold rbind in H. destruct (publish_result version (lp_source p) rs h1) as [[u h2]|err|]; cbn [bind fst snd rret] in H; try discriminate.
      injection H as <- <-. cbn [publishing].
      destruct (nonempty (e_errors e2)), (nonempty (e_pending e2)); cbn [orb negb andb]; (edestruct Fin as (F1 & F2 & F3 & F4); [reflexivity|]; rewrite F1, F2, F3, F4; repeat split; reflexivity).
    + injection H as <- <-. cbn [publishing].
      destruct (nonempty (e_errors e2)), (nonempty (e_pending e2)); cbn [orb negb andb]; (edestruct Fin as (F1 & F2 & F3 & F4); [reflexivity|]; rewrite F1, F2, F3, F4; repeat split; reflexivity).
Qed.
(** C80: the notices shown are, for every pact in turn, those for before the verification and those for the stage after it. *)
Theorem C80_notices : forall f consumers publish npe sources h ok e h',
  verify_provider w x cx env st f consumers publish npe sources h = Ok ((ok, e), h') ->
  exists all, map fst all = fetch_pacts sources consumers /\ e_results e = flat_map snd all /\
    e_errors e = flat_map (counted npe) all /\ e_pending e = flat_map not_counted all /\
    e_shown e = notices_shown npe (match publish with Some _ => true | None => false end) [] all.
Proof.
  intros f consumers publish npe sources h ok e h' H. unfold verify_provider, rbind in H.
  destruct (verify_pacts w x cx env st f publish npe (fetch_pacts sources consumers) execution_new h) as [[e1 h1]|err|] eqn:V; cbn [bind fst snd rret] in H; try discriminate.
  injection H as <- <- <-. change (match publish with Some _ => true | None => false end) with (publishing publish).
  assert (G : forall l e h e' h' earlier, verify_pacts w x cx env st f publish npe l e h = Ok (e', h') ->
    e_errors e = flat_map (counted npe) earlier -> e_pending e = flat_map not_counted earlier ->
    exists all, map fst all = l /\ e_results e' = e_results e ++ flat_map snd all /\
      e_errors e' = flat_map (counted npe) (earlier ++ all) /\ e_pending e' = flat_map not_counted (earlier ++ all) /\
      e_shown e' = e_shown e ++ notices_shown npe (publishing publish) earlier all).
  { clear. induction l as [|[p|nf] l IH]; intros e h e' h' earlier H E1 E2; cbn [verify_pacts] in H.
    - injection H as <- <-. exists []. rewrite !app_nil_r. cbn [flat_map notices_shown]. rewrite ?app_nil_r. repeat split; assumption.
    - unfold rbind in H. destruct (verify_pact w x cx env st f publish p e h) as [[e2 h2]|err|] eqn:V; cbn [bind fst snd] in H; try discriminate.
      destruct (pact_shown _ _ _ _ _ _ _ npe earlier V E1 E2) as (rs & A & B & C & D).
      destruct (IH _ _ _ _ _ H A B) as (all & G1 & G2 & G3 & G4 & G5). exists ((Loaded p, rs) :: all).
      split; [cbn [map fst]; rewrite G1; reflexivity|]. split; [rewrite G2, C; cbn [flat_map snd]; rewrite app_assoc; reflexivity|].
      rewrite <- app_assoc in G3, G4. split; [exact G3|]. split; [exact G4|]. rewrite G5, D. cbn [notices_shown fst].
      set (X := if none (lp_interactions p) then _ else _). rewrite <- !app_assoc. reflexivity.
    - destruct (IH _ _ _ _ (earlier ++ [(LoadError nf, [])]) H) as (all & G1 & G2 & G3 & G4 & G5).
      + rewrite flat_map_app. cbn [flat_map counted fst]. unfold load_failed. destruct (nf && negb npe); cbn [e_errors]; rewrite E1, ?app_nil_r; reflexivity.
      + rewrite flat_map_app. cbn [flat_map not_counted snd]. unfold load_failed. destruct (nf && negb npe); cbn [e_pending]; rewrite E2, ?app_nil_r; reflexivity.
      + exists ((LoadError nf, []) :: all). split; [cbn [map fst]; rewrite G1; reflexivity|].
        rewrite <- app_assoc in G3, G4. split; [rewrite G2; unfold load_failed; destruct (nf && negb npe); reflexivity|].
        split; [exact G3|]. split; [exact G4|]. rewrite G5. cbn [notices_shown fst app]. unfold load_failed. destruct (nf && negb npe); reflexivity. }
  destruct (G _ _ _ _ _ [] V eq_refl eq_refl) as (all & G1 & G2 & G3 & G4 & G5). exists all. repeat split; assumption.
Qed.
(** C80 (why): a single pact that passes shows, when nothing is published, the notice for a failure; and one whose failures are
    all pending shows that for a success. *)
Theorem C80_why_notice_of_failure : forall f npe p h ok e h',
  verify_provider w x cx env st f [] None npe [[Loaded p]] h = Ok ((ok, e), h') -> lp_interactions p <> [] ->
  ((forall r, In r (e_results e) -> ir_result r = None) ->
     e_shown e = texts_for (S_ "before_verification") p ++ texts_for (S_ "after_verification:success_false_published_false") p) /\
  (e_errors e = [] -> e_pending e <> [] ->
     e_shown e = texts_for (S_ "before_verification") p ++ texts_for (S_ "after_verification:success_true_published_false") p).
Proof.
  intros f npe p h ok e h' H N. apply C80_notices in H. destruct H as (all & M & R & E1 & E2 & S). cbn in M.
  destruct all as [|[l rs] [|? ?]]; try discriminate. injection M as ->. cbn [flat_map snd] in R. rewrite app_nil_r in R.
  cbn [notices_shown fst app] in S. destruct (lp_interactions p) as [|i0 l0]; [congruence|]. cbn [none] in S. rewrite app_nil_r in S.
  rewrite <- E1, <- E2 in S. split.
  - intro A. rewrite R in A.
    assert (Z : e_errors e = [] /\ e_pending e = []).
    { rewrite E1, E2. cbn [flat_map counted not_counted fst snd]. rewrite !app_nil_r. clear -A. induction rs as [|r rs IH]; [split; reflexivity|].
      cbn [flat_map]. rewrite (A r (or_introl eq_refl)). cbn [app]. apply IH. intros r0 I. apply A. right. exact I. }
    destruct Z as [Z1 Z2]. rewrite Z1, Z2 in S. exact S.
  - intros Z1 Z2. rewrite Z1 in S. destruct (e_pending e); [congruence|]. exact S.
Qed.
End Runs.
