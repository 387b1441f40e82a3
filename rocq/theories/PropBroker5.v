(** C84: reading pacts from a Pact Broker. *)
From Coq Require Import Ascii String List Arith NArith ZArith Lia Bool Sorted ZifyBool ZifyN ZifyNat.
From Verif Require Import Base PathExp Json Text TextProofs MatchingRules Matchers ContentType Http Merge QueryString VerifierClient Verifier SpecVerifier Broker SpecBroker PropVerifier PropBroker2 PropBroker3 PropBroker4.
Import ListNotations.
Open Scope N_scope.
Local Opaque show_N.

Section Client.
Variable w : world.
Variable x : externals.
Variable uw : N -> bool.
Variable u : url_lib.
Variable broker : request_log u -> broker_request u -> option broker_response.
Context {P : Type}.
Variable load_pact : json -> option P.
Notation doc := (answered x u broker).

(** ** One pact *)
Lemma resolve_no_panic : forall broker_url path, resolve_path u broker_url path <> Panic.
Proof.
  intros b p R. unfold resolve_path in R. destruct (u_parse u b) as [base|]; [|discriminate]. cbn [url_ok bind] in R. destruct p; [discriminate|].
  destruct (nonempty _ && _); [destruct (starts_with _ _); [|destruct (starts_with _ _)]|]; unfold url_ok in R; try discriminate;
    match type of R with match ?o with _ => _ end = _ => destruct o; discriminate end.
Qed.
Lemma one_pact : forall c l vs h r h', values_ok vs -> fetch_pact_of_link w x uw u broker load_pact c l vs h = (r, h') ->
  exists evs, h' = h ++ evs /\ pact_read w x uw u broker load_pact (c_url c) (c_auth c) vs l h evs r.
Proof.
  intros c l vs h r h' V E. unfold fetch_pact_of_link in E. destruct (l_href l) as [href|] eqn:HL.
  2:{ unfold aret in E. injection E as <- <-. exists []. split; [rewrite app_nil_r; reflexivity|]. apply pr_no_href, HL. }
  unfold fetch_url in E.
  set (m := if l_templated l then parse_link_url uw l vs else _) in E.
  assert (exists to, m = Ok to /\ target uw l vs to) as [to [M K]].
  { subst m. unfold target. destruct (l_templated l).
    - destruct (C83_template uw l vs V) as [A [_ B]]. destruct B as [to B]; [rewrite HL; discriminate|]. exists to. split; [exact B|]. apply (A to B).
    - rewrite HL. exists href. split; reflexivity. }
  clearbody m. subst m. unfold abind, aret in E.
  assert (forall e, (Err e : result (P * list link), h) = (r, h') -> (forall t, ~ on_broker u (c_url c) to t) ->
            exists evs, h' = h ++ evs /\ pact_read w x uw u broker load_pact (c_url c) (c_auth c) vs l h evs r) as NO.
  { intros e X N1. injection X as <- <-. exists []. split; [rewrite app_nil_r; reflexivity|]. apply (pr_no_url _ _ _ _ _ _ _ _ _ _ _ to e K N1). }
  destruct (u_parse u (c_url c)) as [base|] eqn:B; cbn [url_ok] in E; [|apply (NO _ E); intros t [b [j [Q _]]]; congruence].
  destruct (u_join u base to) as [joined|] eqn:J; cbn [url_ok] in E; [|apply (NO _ E); intros t [b [j [Q [Q' _]]]]; congruence].
  unfold fetch, abind, aret in E. destruct (resolve_path u (c_url c) (u_path u joined)) as [t|e|] eqn:R;
    [|apply (NO _ E); intros t [b [j [Q [Q' Q'']]]]; congruence|exfalso; apply (resolve_no_panic _ _ R)].
  assert (read_from uw u (c_url c) l vs t) as RF by (exists to; split; [exact K|exists base, joined; auto]).
  unfold send in E. set (q := mkBR BGet t (credentials (c_auth c)) None) in *.
  destruct (broker h q) as [a|] eqn:A.
  - pose proof (C84_answer w x a) as CA. destruct CA as [CA [_ [_ [_ [_ [_ NP]]]]]]. destruct (parse_response w x a) as [j|e|] eqn:PA; [| |contradiction].
    + assert (doc h q j) as D by (exists a; split; [exact A|apply CA; reflexivity]). injection E as <- <-. exists [q]. split; [reflexivity|]. destruct (load_pact j) as [p|] eqn:L.
      * apply (pr_pact _ _ _ _ _ _ _ _ _ _ _ t j q p RF eq_refl D L).
      * apply (pr_no_pact _ _ _ _ _ _ _ _ _ _ _ t j q RF eq_refl D L).
    + injection E as <- <-. exists [q]. split; [reflexivity|]. apply (pr_no_document _ _ _ _ _ _ _ _ _ _ _ t e q RF eq_refl).
      intros j [a' [A' D]]. rewrite A in A'. injection A' as <-. apply CA in D. discriminate.
  - injection E as <- <-. exists [q]. split; [reflexivity|]. apply (pr_no_document _ _ _ _ _ _ _ _ _ _ _ t BIo q RF eq_refl).
    intros j [a' [A' D]]. rewrite A in A'. discriminate.
Qed.
Lemma each_pact : forall c vs ls h r h', values_ok vs -> each u (fun l => fetch_pact_of_link w x uw u broker load_pact c l vs) ls h = (r, h') ->
  exists rs evs, r = Ok rs /\ h' = h ++ evs /\ pacts_read w x uw u broker load_pact (c_url c) (c_auth c) vs h ls evs rs.
Proof.
  intros c vs ls. induction ls as [|l ls IH]; intros h r h' V E; cbn [each] in E.
  - unfold aret in E. injection E as <- <-. exists [], []. split; [reflexivity|]. split; [rewrite app_nil_r; reflexivity|apply prs_nil].
  - destruct (fetch_pact_of_link w x uw u broker load_pact c l vs h) as [r1 h1] eqn:F. apply one_pact in F; [|exact V]. destruct F as [e1 [-> P1]].
    unfold abind in E. destruct (each u _ ls (h ++ e1)) as [r2 h2] eqn:L. destruct (IH _ _ _ V L) as [rs [e2 [-> [-> P2]]]]. unfold aret in E. injection E as <- <-.
    exists (r1 :: rs), (e1 ++ e2). split; [reflexivity|]. split; [rewrite app_assoc; reflexivity|]. apply prs_cons; assumption.
Qed.
(** The second kind of list: with what is known of each pact. *)
Definition with_props (lp : link * properties) (r : result (P * list link)) : result (P * properties * list link) :=
  match r with Ok pl => Ok (fst pl, snd lp, snd pl) | Err e => Err e | Panic => Panic end.
Lemma each_listed_pact : forall c vs lps h r h', values_ok vs ->
  each u (fun lp => abind u (fetch_pact_of_link w x uw u broker load_pact c (fst lp) vs) (fun r => aret u (Ok (fst r, snd lp, snd r)))) lps h = (r, h') ->
  exists rs evs, r = Ok (map (fun a => with_props (fst a) (snd a)) (combine lps rs)) /\ h' = h ++ evs /\
    pacts_read w x uw u broker load_pact (c_url c) (c_auth c) vs h (map fst lps) evs rs.
Proof.
  intros c vs lps.
  set (G := fun lp : link * properties => abind u (fetch_pact_of_link w x uw u broker load_pact c (fst lp) vs) (fun r => aret u (Ok (fst r, snd lp, snd r)))).
  assert (forall lp h, G lp h = (with_props lp (fst (fetch_pact_of_link w x uw u broker load_pact c (fst lp) vs h)), snd (fetch_pact_of_link w x uw u broker load_pact c (fst lp) vs h))) as GE.
  { intros lp h. subst G. cbv beta. unfold abind, aret. destruct (fetch_pact_of_link w x uw u broker load_pact c (fst lp) vs h) as [[r| |] h1]; reflexivity. }
  clearbody G. induction lps as [|lp lps IH]; intros h r h' V E; cbn [each] in E.
  - unfold aret in E. injection E as <- <-. exists [], []. split; [reflexivity|]. split; [rewrite app_nil_r; reflexivity|apply prs_nil].
  - rewrite GE in E. destruct (fetch_pact_of_link w x uw u broker load_pact c (fst lp) vs h) as [r1 h1] eqn:F. apply one_pact in F; [|exact V]. destruct F as [e1 [-> P1]].
    cbn [fst snd] in E. unfold abind in E. destruct (each u G lps (h ++ e1)) as [r2 h2] eqn:L. destruct (IH _ _ _ V L) as [rs [e2 [-> [-> P2]]]]. unfold aret in E. injection E as <- <-.
    exists (r1 :: rs), (e1 ++ e2). split; [reflexivity|]. split; [rewrite app_assoc; reflexivity|]. cbn [map]. apply prs_cons; assumption.
Qed.

(** ** From the root of the broker *)
Lemma root_ok : forall broker_url auth name vs h c h', values_ok vs -> navigate w x uw u broker (with_url broker_url auth) name vs h = (Ok c, h') ->
  exists t root q2 j, resolve_path u broker_url [] = Ok t /\ let q1 := mkBR BGet t (credentials auth) None in
    h' = h ++ [q1; q2] /\ doc h q1 root /\ follows w uw u broker_url auth root name vs q2 /\ doc (h ++ [q1]) q2 j /\ c = mkClient broker_url (Some j) auth.
Proof.
  intros broker_url auth name vs h c h' V E. unfold navigate, abind at 1 in E. cbn [c_info with_url] in E. unfold abind at 1 in E. unfold fetch at 1, abind at 1, aret at 1 in E.
  change (with_url broker_url auth) with (mkClient broker_url None auth) in E. cbn [c_url] in E. destruct (resolve_path u broker_url []) as [t|e|] eqn:R; try discriminate.
  destruct (send w x u broker (mkClient broker_url None auth) BGet t None h) as [[root|e|] h1] eqn:S1; try discriminate.
  apply send_ok in S1. destruct S1 as [-> D1]. cbn [c_auth] in *. unfold aret in E.
  change (update_path_info (mkClient broker_url None auth) root) with (mkClient broker_url (Some root) auth) in E.
  assert (navigate w x uw u broker (mkClient broker_url (Some root) auth) name vs (h ++ [mkBR BGet t (credentials auth) None]) = (Ok c, h')) as N1 by exact E.
  apply (follow_ok w x uw u broker _ root) in N1; [|exact V|reflexivity]. destruct N1 as [q2 [j [-> [F [D2 ->]]]]]. cbn [c_url c_auth] in *.
  exists t, root, q2, j. split; [reflexivity|]. split; [rewrite <- app_assoc; reflexivity|]. auto.
Qed.

(** The latest pacts of a provider: the root, the list, then each pact for itself. *)
Theorem C84_latest_pacts : forall broker_url provider auth h rs h', text_ok provider ->
  fetch_pacts_from_broker w x uw u broker load_pact broker_url provider auth h = (Ok rs, h') ->
  exists t root q2 j ls evs, resolve_path u broker_url [] = Ok t /\ let q1 := mkBR BGet t (credentials auth) None in
    h' = h ++ [q1; q2] ++ evs /\ doc h q1 root /\
    follows w uw u broker_url auth root (S_ "pb:latest-provider-pacts") [(S_ "provider", provider)] q2 /\ doc (h ++ [q1]) q2 j /\
    iter_links w (Some j) (S_ "pacts") = Ok ls /\
    pacts_read w x uw u broker load_pact broker_url auth [(S_ "provider", provider)] (h ++ [q1; q2]) ls evs rs.
Proof.
  intros broker_url provider auth h rs h' TP E. unfold fetch_pacts_from_broker, abind at 1 in E.
  destruct (navigate w x uw u broker _ _ _ h) as [[c|e|] h1] eqn:N1; try discriminate. apply root_ok in N1; [|apply one_ok, TP].
  destruct N1 as [t [root [q2 [j [R [-> [D1 [F [D2 ->]]]]]]]]]. cbn [c_info] in E.
  unfold abind, aret in E. destruct (iter_links w (Some j) (S_ "pacts")) as [ls|e|] eqn:L; try discriminate.
  apply each_pact in E; [|apply one_ok, TP]. destruct E as [rs' [evs [X [-> PR]]]]. injection X as <-.
  exists t, root, q2, j, ls, evs. split; [exact R|]. split; [rewrite <- app_assoc; reflexivity|]. auto.
Qed.

(** The pacts for verification: as before, with the selection posted to the [self] link of the list. *)
Theorem C84_pacts_for_verification : forall broker_url provider pending since tags branch selectors auth h rs h', text_ok provider ->
  fetch_pacts_dynamically w x uw u broker load_pact broker_url provider pending since tags branch selectors auth h = (Ok rs, h') ->
  exists t root q2 j q3 answer lps rs' evs, resolve_path u broker_url [] = Ok t /\ let q1 := mkBR BGet t (credentials auth) None in
    h' = h ++ [q1; q2; q3] ++ evs /\ doc h q1 root /\
    follows w uw u broker_url auth root (S_ "pb:provider-pacts-for-verification") [(S_ "provider", provider)] q2 /\ doc (h ++ [q1]) q2 j /\
    sends w uw u broker_url auth BPost j (S_ "self") [] (selection_json pending since tags branch selectors) q3 /\ doc (h ++ [q1; q2]) q3 answer /\
    pact_links answer = Ok lps /\
    pacts_read w x uw u broker load_pact broker_url auth [(S_ "provider", provider)] (h ++ [q1; q2; q3]) (map fst lps) evs rs' /\
    Forall2 (fun lp rr => match fst rr with Ok (p, ls) => snd rr = Ok (p, snd lp, ls) | Err e => snd rr = Err e | Panic => False end) lps (combine rs' rs) /\ length rs = length rs'.
Proof.
  intros broker_url provider pending since tags branch selectors auth h rs h' TP E. unfold fetch_pacts_dynamically, abind at 1 in E.
  destruct (navigate w x uw u broker _ _ _ h) as [[c|e|] h1] eqn:N1; try discriminate. apply root_ok in N1; [|apply one_ok, TP].
  destruct N1 as [t [root [q2 [j [R [-> [D1 [F [D2 ->]]]]]]]]]. cbn [c_info] in E.
  unfold abind at 1, aret at 1 in E. destruct (find_link w (Some j) (S_ "self")) as [l|e|] eqn:L; try discriminate.
  unfold abind at 1, aret at 1 in E. destruct (parse_link_url uw l []) as [to|e|] eqn:PL; try discriminate.
  unfold abind at 1 in E. destruct (send_document w x u broker _ BPost to _ _) as [[answer|e|] h2] eqn:S1; try discriminate.
  apply send_document_ok in S1. destruct S1 as [t3 [T3 [-> D3]]]. cbn [c_url c_auth] in *.
  unfold abind at 1, aret at 1 in E. destruct (pact_links answer) as [lps|e|] eqn:LP; try discriminate.
  apply each_listed_pact in E; [|apply one_ok, TP]. destruct E as [rs' [evs [X [-> PR]]]]. injection X as ->.
  set (q1 := mkBR BGet t (credentials auth) None) in *. set (q3 := mkBR BPost t3 (credentials auth) (Some (selection_json pending since tags branch selectors))) in *.
  exists t, root, q2, j, q3, answer, lps, rs', evs. split; [exact R|]. cbv zeta.
  assert ((h ++ [q1; q2]) ++ [q3] = h ++ [q1; q2; q3]) as X by (rewrite <- app_assoc; reflexivity). rewrite X in *.
  split; [rewrite <- app_assoc; reflexivity|]. split; [exact D1|]. split; [exact F|]. split; [exact D2|]. split; [exists l, to, t3; split; [exact L|split; [apply parse_leads; [apply none_ok|exact PL]|split; [exact T3|reflexivity]]]|].
  split; [exact D3|]. split; [exact LP|]. split; [exact PR|].
  assert (length rs' = length lps) as LEN.
  { clear - PR. rewrite <- (map_length fst lps). remember (map fst lps) as ls. clear Heqls. induction PR; cbn; [reflexivity|f_equal; assumption]. }
  split; [|rewrite map_length, combine_length; lia].
  assert (forall r, In r rs' -> r <> Panic) as NP.
  { clear - PR. remember (map fst lps) as ls. clear Heqls. induction PR as [|h1 l0 ls0 e1 e2 r0 rs0 P1 P2 IH]; intros r [].
    - subst r0. destruct P1; discriminate.
    - apply IH; assumption. }
  clear - LEN NP. revert rs' LEN NP. induction lps as [|lp lps IH]; intros [|r rs'] LEN NP; try discriminate; cbn [combine map fst snd]; [constructor|].
  constructor; [|apply IH; [injection LEN as LEN; exact LEN|intros r' I; apply NP; right; exact I]]. cbn [fst snd].
  destruct r as [[p ls]|e|]; [reflexivity|reflexivity|]. apply (NP Panic); [left|]; reflexivity.
Qed.
End Client.
