(** C84, C85: reading pacts from a Pact Broker and publishing to it. *)
From Coq Require Import Ascii String List Arith NArith ZArith Lia Bool Sorted ZifyBool ZifyN ZifyNat.
From Verif Require Import Base PathExp Json Text TextProofs MatchingRules Matchers ContentType Http Merge QueryString VerifierClient Verifier SpecVerifier Broker SpecBroker PropVerifier PropBroker2.
Import ListNotations.
Open Scope N_scope.
Local Opaque show_N.

Lemma starts_slash : forall s, starts_with (S_ "/") s = true <-> exists p, s = S_ "/" ++ p.
Proof.
  intro s. change (S_ "/") with [47]. split.
  - destruct s as [|c s]; [discriminate|]. cbn [starts_with]. intro H. destruct (47 =? c) eqn:E; [|discriminate]. apply N.eqb_eq in E. subst c. exists s. reflexivity.
  - intros [p ->]. reflexivity.
Qed.

Section Client.
Variable w : world.
Variable x : externals.
Variable uw : N -> bool.
Variable u : url_lib.
Variable broker : request_log u -> broker_request u -> option broker_response.
Notation parse := (parse_response w x).
Notation doc := (answered x u broker).

(** ** Answers *)
Lemma json_type_spec : forall a, json_type x a = true <->
  exists ct, parse_mime x (match bs_type a with Some t => t | None => S_ "text/plain" end) = Some ct /\ main_type ct = S_ "application" /\
    ((sub_type ct = S_ "json" /\ suffix ct = None) \/ (sub_type ct = S_ "hal" /\ suffix ct = Some (S_ "json"))).
Proof.
  intro a. unfold json_type. destruct (parse_mime x _) as [ct|]; [|split; [discriminate|intros [? [? _]]; discriminate]]. split.
  - intro H. exists ct. split; [reflexivity|]. apply andb_true_iff in H. destruct H as [M H]. split; [destruct (str_eqb_spec (main_type ct) (S_ "application")); [assumption|discriminate]|].
    apply orb_true_iff in H. destruct H as [H|H]; apply andb_true_iff in H; destruct H as [H1 H2].
    + left. split; [destruct (str_eqb_spec (sub_type ct) (S_ "json")); [assumption|discriminate]|]. destruct (suffix ct); [discriminate|reflexivity].
    + right. split; [destruct (str_eqb_spec (sub_type ct) (S_ "hal")); [assumption|discriminate]|]. destruct (suffix ct) as [s|]; [|discriminate].
      destruct (str_eqb_spec s (S_ "json")); [subst; reflexivity|discriminate].
  - intros [ct' [E [M K]]]. injection E as <-. rewrite M, str_eqb_refl. destruct K as [[-> ->]|[-> ->]]; rewrite ?str_eqb_refl; [reflexivity|]. apply orb_true_r.
Qed.
(** What an answer counts as. *)
Theorem C84_answer : forall a,
  (forall j, parse a = Ok j <-> is_document x a j) /\
  (parse a = Err BNotFound <-> bs_status a = 404) /\
  (forall es, parse a = Err (BValidation es) -> bs_status a = 400 /\ exists j, json_of_bytes x (bs_body a) = Some j /\ es = validation_errors w j) /\
  (parse a = Err BContent -> 200 <= bs_status a < 300 \/ bs_status a = 400) /\
  parse a <> Err BUrl /\ parse a <> Err BLink /\ parse a <> Panic.
Proof.
  intro a. unfold parse_response, is_document.
  destruct ((200 <=? bs_status a) && (bs_status a <? 300)) eqn:R.
  - destruct (json_type x a) eqn:T.
    + apply json_type_spec in T. destruct (json_of_bytes x (bs_body a)) as [j|].
      * split; [|split; [split; [discriminate|lia]|split; [discriminate|split; [discriminate|split; [discriminate|split; discriminate]]]]].
        intro j'. split; [intro E; injection E as <-; split; [lia|split; [reflexivity|exact T]]|intros [_ [E _]]; congruence].
      * split; [intro j'; split; [discriminate|intros [_ [? _]]; discriminate]|]. split; [split; [discriminate|lia]|]. split; [discriminate|]. split; [intros _; left; lia|split; [discriminate|split; discriminate]].
    + split; [intro j'; split; [discriminate|]|split; [split; [discriminate|lia]|split; [discriminate|split; [intros _; left; lia|split; [discriminate|split; discriminate]]]]].
      intros [_ [_ K]]. apply json_type_spec in K. congruence.
  - assert (forall j, ~ (200 <= bs_status a < 300 /\ j)) as NR by (intros j [K _]; lia).
    destruct (bs_status a =? 404) eqn:E4.
    + split; [intro j; split; [discriminate|intro K; destruct (NR _ K)]|]. split; [split; [intros _; lia|reflexivity]|]. split; [discriminate|]. split; [discriminate|split; [discriminate|split; discriminate]].
    + destruct (bs_status a =? 400) eqn:E0.
      * destruct (json_type x a).
        -- destruct (json_of_bytes x (bs_body a)) as [j|].
           ++ split; [intro j'; split; [discriminate|intro K; destruct (NR _ K)]|]. split; [split; [discriminate|lia]|].
              split; [intros es E; injection E as <-; split; [lia|eauto]|]. split; [discriminate|split; [discriminate|split; discriminate]].
           ++ split; [intro j'; split; [discriminate|intro K; destruct (NR _ K)]|]. split; [split; [discriminate|lia]|]. split; [discriminate|]. split; [intros _; right; lia|split; [discriminate|split; discriminate]].
        -- split; [intro j'; split; [discriminate|intro K; destruct (NR _ K)]|]. split; [split; [discriminate|lia]|]. split; [discriminate|]. split; [discriminate|split; [discriminate|split; discriminate]].
      * split; [intro j'; split; [discriminate|intro K; destruct (NR _ K)]|]. split; [split; [discriminate|lia]|]. split; [discriminate|]. split; [discriminate|split; [discriminate|split; discriminate]].
Qed.

(** ** Computations that stop at the first answer that is no document *)
Definition strict {A} (auth : option http_auth) (m : asks u A) : Prop := forall h, exists evs,
  snd (m h) = h ++ evs /\ Forall (carries u auth) evs /\
  (forall before r after, evs = before ++ r :: after -> after <> [] \/ (exists a, fst (m h) = Ok a) -> exists j, doc (h ++ before) r j).
Lemma strict_ret : forall A auth (r : result A), strict auth (aret u r).
Proof. intros A auth r h. exists []. split; [rewrite app_nil_r; reflexivity|]. split; [constructor|]. intros [|? ?] ? ? E; discriminate. Qed.
Lemma strict_bind : forall A B auth (m : asks u A) (f : A -> asks u B), strict auth m ->
  (forall h a h', m h = (Ok a, h') -> strict auth (f a)) -> strict auth (abind u m f).
Proof.
  intros A B auth m f M F h. destruct (M h) as [e1 [E1 [C1 D1]]]. unfold abind.
  destruct (m h) as [[a|e|] h1] eqn:MH; cbn [fst snd] in *.
  - destruct (F h a h1 MH h1) as [e2 [E2 [C2 D2]]]. exists (e1 ++ e2). split; [rewrite E2, E1, app_assoc; reflexivity|]. split; [apply Forall_app; split; assumption|].
    intros before r after E K. subst h1. rewrite <- app_assoc in D2 || idtac.
    assert ((exists after1, e1 = before ++ r :: after1) \/ (exists before2, before = e1 ++ before2 /\ e2 = before2 ++ r :: after)) as [[a1 ->]|[b2 [-> ->]]].
    { clear - E. revert before E. induction e1 as [|y e1 IH]; intros before E.
      - right. exists before. split; [reflexivity|exact E].
      - destruct before as [|z before].
        + injection E as -> E. left. exists e1. reflexivity.
        + injection E as -> E. destruct (IH before E) as [[a1 ->]|[b2 [-> ->]]]; [left; exists a1; reflexivity|right; exists b2; split; reflexivity]. }
    + apply (D1 before r a1 eq_refl). right. eexists. reflexivity.
    + rewrite app_assoc. apply (D2 b2 r after eq_refl K).
  - exists e1. split; [exact E1|]. split; [exact C1|]. intros before r after E [K|[a K]]; [|discriminate]. apply (D1 _ _ _ E). left. exact K.
  - exists e1. split; [exact E1|]. split; [exact C1|]. intros before r after E [K|[a K]]; [|discriminate]. apply (D1 _ _ _ E). left. exact K.
Qed.
Lemma strict_send : forall c m t body, strict (c_auth c) (send w x u broker c m t body).
Proof.
  intros c m t body h. unfold send. eexists. cbn [fst snd]. split; [reflexivity|]. split.
  - constructor; [|constructor]. unfold carries. cbn [br_auth]. destruct (c_auth c) as [[]|]; reflexivity.
  - intros before r after E K. destruct before as [|? [|? ?]]; [|discriminate|discriminate]. injection E as <- <-. rewrite app_nil_r.
    destruct K as [K|[j K]]; [contradiction|]. unfold answered. destruct (broker h _) as [a|] eqn:B; [|discriminate]. exists j, a. split; [first [exact B|reflexivity]|]. apply (proj1 (C84_answer a)), K.
Qed.
Lemma strict_fetch : forall c p, strict (c_auth c) (fetch w x u broker c p).
Proof. intros c p. apply strict_bind; [apply strict_ret|]. intros h a h' _. apply strict_send. Qed.
Lemma strict_fetch_url : forall c l vs, strict (c_auth c) (fetch_url w x uw u broker c l vs).
Proof.
  intros c l vs. apply strict_bind; [apply strict_ret|]. intros. apply strict_bind; [apply strict_ret|]. intros. apply strict_bind; [apply strict_ret|]. intros.
  apply strict_fetch.
Qed.
Lemma strict_send_document : forall c m t body, strict (c_auth c) (send_document w x u broker c m t body).
Proof. intros c m t body. apply strict_bind; [apply strict_ret|]. intros. apply strict_bind; [apply strict_ret|]. intros. apply strict_send. Qed.
Lemma strict_navigate : forall c name vs, strict (c_auth c) (navigate w x uw u broker c name vs).
Proof.
  intros c name vs. apply strict_bind.
  - destruct (c_info c); [apply strict_ret|]. apply strict_bind; [apply strict_fetch|]. intros. apply strict_ret.
  - intros h c' h' E. assert (c_auth c' = c_auth c) as <-.
    { destruct (c_info c); unfold aret in E; [inversion E; subst; reflexivity|]. unfold abind in E. destruct (fetch w x u broker c [] h) as [[j|e|] h1]; [|discriminate|discriminate].
      injection E as <- _. reflexivity. }
    apply strict_bind; [|intros; apply strict_ret]. apply strict_bind; [apply strict_ret|]. intros. apply strict_fetch_url.
Qed.
Lemma navigate_client : forall c name vs h c' h', navigate w x uw u broker c name vs h = (Ok c', h') -> c_url c' = c_url c /\ c_auth c' = c_auth c.
Proof.
  intros c name vs h c' h' E. unfold navigate, abind in E. destruct (c_info c) as [i|].
  - unfold aret in E; cbv beta iota in E. destruct (fetch_link w x uw u broker c name vs h) as [[j|e|] h1]; try discriminate. cbv beta iota in E. inversion E; subst. split; reflexivity.
  - destruct (fetch w x u broker c [] h) as [[j|e|] h1]; try discriminate. unfold aret in E; cbv beta iota in E.
    destruct (fetch_link w x uw u broker (update_path_info c j) name vs h1) as [[j'|e|] h2]; try discriminate. cbv beta iota in E. inversion E; subst. split; reflexivity.
Qed.

(** ** Single steps *)
Lemma send_ok : forall c m t body h j h', send w x u broker c m t body h = (Ok j, h') ->
  let r := mkBR m t (credentials (c_auth c)) body in h' = h ++ [r] /\ doc h r j.
Proof.
  intros c m t body h j h' E. unfold send in E. injection E as E <-. split; [reflexivity|]. unfold answered.
  destruct (broker h _) as [a|] eqn:B; [|discriminate]. exists a. split; [first [exact B|reflexivity]|]. apply (proj1 (C84_answer a)), E.
Qed.
Definition values_ok (values : list (str * str)) : Prop := forall k v : str, obj_get k values = Some v -> forallb scalar v = true.
Lemma fetch_url_ok : forall c l vs h j h', values_ok vs -> fetch_url w x uw u broker c l vs h = (Ok j, h') ->
  exists t, read_from uw u (c_url c) l vs t /\ let r := mkBR BGet t (credentials (c_auth c)) None in h' = h ++ [r] /\ doc h r j.
Proof.
  intros c l vs h j h' V E. unfold fetch_url, abind at 1 in E. cbn [aret] in E.
  assert (forall to, (if l_templated l then parse_link_url uw l vs else match l_href l with Some h0 => Ok h0 | None => Err BLink end) = Ok to ->
            if l_templated l then leads_to uw l vs to else l_href l = Some to) as K.
  { intros to. destruct (l_templated l).
    - intro H. apply (C83_template uw l vs V) in H. exact H.
    - destruct (l_href l); [|discriminate]. intro H. injection H as <-. reflexivity. }
  destruct (if l_templated l then parse_link_url uw l vs else _) as [to|e|] eqn:T; try discriminate. specialize (K to eq_refl).
  unfold aret, abind at 1 in E. destruct (u_parse u (c_url c)) as [base|] eqn:B; [|discriminate]. cbn [url_ok] in E.
  unfold abind at 1 in E. destruct (u_join u base to) as [joined|] eqn:J; [|discriminate]. cbn [url_ok] in E.
  unfold fetch, abind, aret in E. destruct (resolve_path u (c_url c) (u_path u joined)) as [t|e|] eqn:R; try discriminate.
  exists t. split; [exists to; split; [exact K|exists base, joined; auto]|]. apply send_ok, E.
Qed.
Lemma follow_ok : forall c doc0 name vs h c' h', values_ok vs -> c_info c = Some doc0 -> navigate w x uw u broker c name vs h = (Ok c', h') ->
  exists r j, h' = h ++ [r] /\ follows w uw u (c_url c) (c_auth c) doc0 name vs r /\ doc h r j /\ c' = mkClient (c_url c) (Some j) (c_auth c).
Proof.
  intros c doc0 name vs h c' h' V I E. unfold navigate, abind at 1 in E. rewrite I in E. cbn [aret] in E. unfold abind at 1, aret in E.
  destruct (fetch_link w x uw u broker c name vs h) as [[j|e|] h1] eqn:F; try discriminate. injection E as <- <-.
  unfold fetch_link, abind, aret in F. rewrite I in F. destruct (find_link w (Some doc0) name) as [l|e|] eqn:L; try discriminate.
  apply fetch_url_ok in F; [|exact V]. destruct F as [t [R [E1 D]]]. eexists. exists j. split; [exact E1|]. split; [|split; [exact D|reflexivity]].
  exists l, t. auto.
Qed.
Lemma send_document_ok : forall c m to body h j h', send_document w x u broker c m to body h = (Ok j, h') ->
  exists t, sent_to u (c_url c) to t /\ let r := mkBR m t (credentials (c_auth c)) (Some body) in h' = h ++ [r] /\ doc h r j.
Proof.
  intros c m to body h j h' E. unfold send_document, abind at 1, aret in E. destruct (u_parse u (c_url c)) as [base|] eqn:B; [|discriminate]. cbn [url_ok] in E.
  unfold abind in E. destruct (starts_with (S_ "/") to) eqn:S1.
  - apply starts_slash in S1. destruct (u_join u base to) as [t|] eqn:J; [|discriminate]. cbn [url_ok] in E. exists t. split; [exists base; split; [exact B|left; split; assumption]|].
    apply send_ok, E.
  - assert (~ exists p, to = S_ "/" ++ p) as S2 by (intro K; apply starts_slash in K; congruence).
    destruct (u_parse u to) as [v|] eqn:P; [|discriminate]. cbn [url_ok bind] in E. destruct (u_join u base (u_path u v)) as [t|] eqn:J; [|discriminate]. cbn [url_ok] in E.
    exists t. split; [exists base; split; [exact B|right; split; [exact S2|exists v; split; assumption]]|]. apply send_ok, E.
Qed.
End Client.
