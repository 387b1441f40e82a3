(** C84, C85 continued: the requests of a whole call. *)
From Coq Require Import Ascii String List Arith NArith ZArith Lia Bool Sorted ZifyBool ZifyN ZifyNat.
From Verif Require Import Base PathExp Json Text TextProofs MatchingRules Matchers ContentType Http Merge QueryString VerifierClient Verifier SpecVerifier Broker SpecBroker PropVerifier PropBroker2 PropBroker3.
Import ListNotations.
Open Scope N_scope.
Local Opaque show_N.

Section Client.
Variable w : world.
Variable x : externals.
Variable uw : N -> bool.
Variable u : url_lib.
Variable broker : request_log u -> broker_request u -> option broker_response.
Notation doc := (answered x u broker).
Definition text_ok (s : str) : Prop := forallb scalar s = true.
Lemma one_ok : forall k v, text_ok v -> values_ok [(k, v)].
Proof. intros k v V k' v' E. cbn in E. destruct (str_eqb k' k); [injection E as <-; exact V|discriminate]. Qed.
Lemma two_ok : forall k v k2 v2, text_ok v -> text_ok v2 -> values_ok [(k, v); (k2, v2)].
Proof. intros k v k2 v2 V V2 k' v' E. cbn in E. destruct (str_eqb k' k); [injection E as <-; exact V|]. destruct (str_eqb k' k2); [injection E as <-; exact V2|discriminate]. Qed.
Lemma none_ok : values_ok [].
Proof. intros k v E. discriminate. Qed.

Lemma parse_leads : forall l vs to, values_ok vs -> parse_link_url uw l vs = Ok to -> leads_to uw l vs to.
Proof. intros l vs to V E. apply (C83_template uw l vs V) in E. exact E. Qed.

(** ** Publishing *)
Lemma branch_ok : forall c links b version h h', text_ok b -> text_ok version -> publish_branch w x uw u broker c links b version h = (Ok tt, h') ->
  exists evs, h' = h ++ evs /\ branch_published w x uw u broker (c_url c) (c_auth c) links (Some b) version h evs.
Proof.
  intros c links b version h h' TB TV E. unfold publish_branch, abind at 1 in E.
  destruct (navigate w x uw u broker _ _ _ h) as [[c1|e|] h1] eqn:N1; try discriminate.
  apply (follow_ok w x uw u broker _ (doc_context links)) in N1; [|apply none_ok|reflexivity]. destruct N1 as [r [j [-> [F [D ->]]]]]. cbn [c_info c_url c_auth update_path_info] in *.
  destruct (find_link w (Some j) (S_ "pb:branch-version")) as [l|e|] eqn:L; try discriminate.
  unfold abind at 1, aret at 1 in E. destruct (parse_link_url uw l _) as [to|e|] eqn:P; try discriminate.
  unfold abind in E. destruct (send_document w x u broker _ BPut to _ _) as [[a|e|] h2] eqn:S1; try discriminate. unfold aret in E. injection E as <-.
  apply send_document_ok in S1. destruct S1 as [t [T [-> _]]]. cbn [c_url c_auth] in *. eexists. split; [rewrite <- app_assoc; reflexivity|].
  cbn [app]. eexists. eexists. exists j. split; [reflexivity|]. split; [exact F|]. split; [exact D|]. exists l, to, t. split; [exact L|]. split; [|split; [exact T|reflexivity]].
  apply parse_leads; [apply two_ok; assumption|exact P].
Qed.
Lemma push_tags_ok : forall url auth j l version, find_link w (Some j) (S_ "pb:version-tag") = Ok l -> text_ok version -> forall tags h h', Forall text_ok tags ->
  push_tags w x uw u broker (mkClient url (Some j) auth) l version tags h = (Ok tt, h') ->
  exists puts, h' = h ++ puts /\ Forall2 (fun tag put => sends w uw u url auth BPut j (S_ "pb:version-tag") [(S_ "version", version); (S_ "tag", tag)] (JObj []) put) tags puts.
Proof.
  intros url auth j l version L TV. induction tags as [|tag tags IH]; intros h h' TT E; cbn [push_tags] in E.
  - unfold aret in E. injection E as <-. exists []. split; [rewrite app_nil_r; reflexivity|constructor].
  - inversion TT as [|? ? T1 T2]; subst. unfold abind at 1, aret at 1 in E. destruct (parse_link_url uw l _) as [to|e|] eqn:P; try discriminate.
    unfold abind in E. destruct (send_document w x u broker _ BPut to _ h) as [[a|e|] h2] eqn:S1; try discriminate.
    apply send_document_ok in S1. destruct S1 as [t [T [-> _]]]. cbn [c_url c_auth] in *. destruct (IH _ _ T2 E) as [puts [-> F]].
    eexists. split; [rewrite <- app_assoc; reflexivity|]. cbn [app]. constructor; [|exact F]. exists l, to, t. split; [exact L|]. split; [|split; [exact T|reflexivity]].
    apply parse_leads; [apply two_ok; assumption|exact P].
Qed.
Lemma tags_ok : forall c links tags version h h', tags <> [] -> Forall text_ok tags -> text_ok version -> publish_tags w x uw u broker c links tags version h = (Ok tt, h') ->
  exists evs, h' = h ++ evs /\ tags_published w x uw u broker (c_url c) (c_auth c) links tags version h evs.
Proof.
  intros c links tags version h h' NE TT TV E. unfold publish_tags, abind at 1 in E.
  destruct (navigate w x uw u broker _ _ _ h) as [[c1|e|] h1] eqn:N1; try discriminate.
  apply (follow_ok w x uw u broker _ (doc_context links)) in N1; [|apply none_ok|reflexivity]. destruct N1 as [r [j [-> [F [D ->]]]]]. cbn [c_info c_url c_auth update_path_info] in *.
  destruct (find_link w (Some j) (S_ "pb:version-tag")) as [l|e|] eqn:L; try discriminate.
  apply (push_tags_ok _ _ _ _ _ L TV _ _ _ TT) in E. destruct E as [puts [-> PS]]. eexists. split; [rewrite <- app_assoc; reflexivity|].
  unfold tags_published. destruct tags as [|t0 tags]; [contradiction|]. exists r, puts, j. split; [reflexivity|]. split; [exact F|]. split; [exact D|exact PS].
Qed.

(** *** Publishing stops at the first answer that is no document; the results go last *)
Theorem C85_publishing : forall links broker_url auth payload version tags branch h r h',
  publish_results w x uw u broker links broker_url auth payload version tags branch h = (r, h') ->
  exists evs, h' = h ++ evs /\ Forall (carries u auth) evs /\
    (forall before q after, evs = before ++ q :: after -> after <> [] \/ (exists j, r = Ok j) -> exists j, doc (h ++ before) q j) /\
    (forall before q after, evs = before ++ q :: after -> br_method q = BPost -> after = [] /\ br_body q = Some payload) /\
    Forall (fun q => br_body q = match br_method q with BGet => None | BPut => Some (JObj []) | BPost => Some payload end) evs.
Proof.
  intros links broker_url auth payload version tags branch h r h' E.
  set (c := with_url broker_url auth).
  assert (strict x u broker auth (publish_results w x uw u broker links broker_url auth payload version tags branch)) as ST.
  { unfold publish_results. change auth with (c_auth c) at 1. apply strict_bind.
    - destruct branch as [b|]; [|apply strict_ret]. unfold publish_branch. apply strict_bind; [change (c_auth c) with (c_auth (update_path_info c (doc_context links))); apply strict_navigate|].
      intros h0 c1 h1 N1. apply navigate_client in N1. destruct N1 as [_ N1]. change (c_auth (update_path_info _ _)) with (c_auth c) in N1. destruct (find_link w (c_info c1) _); try apply strict_ret.
      apply strict_bind; [apply strict_ret|]. intros. apply strict_bind; [rewrite <- N1; apply strict_send_document|]. intros. apply strict_ret.
    - intros h0 [] h1 _. apply strict_bind.
      + destruct tags as [|t0 tags]; [apply strict_ret|]. unfold publish_tags. apply strict_bind; [change (c_auth c) with (c_auth (update_path_info c (doc_context links))); apply strict_navigate|].
        intros h2 c1 h3 N1. apply navigate_client in N1. destruct N1 as [_ N1]. change (c_auth (update_path_info _ _)) with (c_auth c) in N1. destruct (find_link w (c_info c1) _) as [l|e|]; try apply strict_ret.
        generalize (t0 :: tags). intro ts. induction ts as [|tg ts IH]; cbn [push_tags]; [apply strict_ret|].
        apply strict_bind; [apply strict_ret|]. intros. apply strict_bind; [rewrite <- N1; apply strict_send_document|]. intros. exact IH.
      + intros. apply strict_bind; [apply strict_ret|]. intros. apply (strict_send_document w x u broker c). }
  assert (forall A B (P : broker_request u -> Prop) (m : asks u A) (f : A -> asks u B),
    (forall h, exists evs, snd (m h) = h ++ evs /\ Forall P evs) -> (forall a h, exists evs, snd (f a h) = h ++ evs /\ Forall P evs) ->
    forall h, exists evs, snd (abind u m f h) = h ++ evs /\ Forall P evs) as BI.
  { intros A B P m f M F h0. unfold abind. destruct (M h0) as [e1 [E1 P1]]. destruct (m h0) as [[a|e|] h1]; cbn [snd] in *; [|exists e1; auto|exists e1; auto].
    destruct (F a h1) as [e2 [E2 P2]]. exists (e1 ++ e2). rewrite E2, E1, app_assoc. split; [reflexivity|]. apply Forall_app. auto. }
  assert (forall A (P : broker_request u -> Prop) (r : result A) h, exists evs, snd (aret u r h) = h ++ evs /\ Forall P evs) as RI
    by (intros; exists []; split; [rewrite app_nil_r; reflexivity|constructor]).
  set (body_ok := fun q : broker_request u => br_body q = match br_method q with BGet => None | BPut => Some (JObj []) | BPost => Some payload end).
  set (NP := fun q : broker_request u => br_method q <> BPost /\ body_ok q).
  assert (forall c name vs h, exists evs, snd (navigate w x uw u broker c name vs h) = h ++ evs /\ Forall NP evs) as NI.
  { assert (forall c t h, exists evs, snd (send w x u broker c BGet t None h) = h ++ evs /\ Forall NP evs) as SI
      by (intros; eexists; split; [reflexivity|constructor; [split; [discriminate|reflexivity]|constructor]]).
    assert (forall c p h, exists evs, snd (fetch w x u broker c p h) = h ++ evs /\ Forall NP evs) as FI by (intros; apply BI; [apply RI|intros; apply SI]).
    intros c0 name vs. apply BI.
    - destruct (c_info c0); [apply RI|]. apply BI; [apply FI|intros; apply RI].
    - intros c1. apply BI; [|intros; apply RI]. unfold fetch_link. apply BI; [apply RI|]. intro l. unfold fetch_url. apply BI; [apply RI|]. intro. apply BI; [apply RI|]. intro. apply BI; [apply RI|]. intro.
      apply FI. }
  assert (forall c to h, exists evs, snd (send_document w x u broker c BPut to (JObj []) h) = h ++ evs /\ Forall NP evs) as PI.
  { intros c0 to. unfold send_document. apply BI; [apply RI|]. intro. apply BI; [apply RI|]. intros t h0. eexists. split; [reflexivity|]. constructor; [split; [discriminate|reflexivity]|constructor]. }
  destruct (ST h) as [evs [E1 [C D]]]. rewrite E in E1, D. cbn [fst snd] in *. exists evs. split; [exact E1|]. split; [exact C|]. split; [exact D|].
  cut (exists pre post, evs = pre ++ post /\ Forall NP pre /\ (post = [] \/ exists q, post = [q] /\ br_method q = BPost /\ br_body q = Some payload)).
  { intros [pre [post [-> [NPF K]]]]. split.
    - intros before q after E2 M. assert (In q post) as IQ.
      { assert (In q (pre ++ post)) as I by (rewrite E2; apply in_or_app; right; left; reflexivity). apply in_app_or in I. destruct I as [I|I]; [|exact I].
        rewrite Forall_forall in NPF. destruct (NPF q I) as [N1 _]. contradiction. }
      destruct K as [->|[q' [-> [M' B']]]]; [destruct IQ|]. destruct IQ as [->|[]]. split; [|exact B'].
      destruct after as [|a after _] using rev_ind; [reflexivity|]. exfalso.
      assert (before ++ q :: after ++ [a] = (before ++ q :: after) ++ [a]) as R by (rewrite <- app_assoc; reflexivity). rewrite R in E2. apply app_inj_tail in E2. destruct E2 as [E2 ->].
      rewrite Forall_forall in NPF. destruct (NPF a) as [N1 _]; [rewrite E2; apply in_or_app; right; left; reflexivity|]. contradiction.
    - apply Forall_app. split; [eapply Forall_impl; [|exact NPF]; intros q [_ Q]; exact Q|]. destruct K as [->|[q [-> [M B]]]]; [constructor|]. constructor; [|constructor]. unfold body_ok. rewrite M. exact B. }
  unfold publish_results in E. fold c in E.
  set (m1 := match branch with Some b => publish_branch w x uw u broker c links b version | None => aret u (Ok tt) end) in E.
  set (m2 := match tags with [] => aret u (Ok tt) | _ => publish_tags w x uw u broker c links tags version end) in E.
  assert (forall h, exists evs, snd (m1 h) = h ++ evs /\ Forall NP evs) as I1.
  { subst m1. destruct branch as [b|]; [|apply RI]. unfold publish_branch. apply BI; [apply NI|]. intro c1. destruct (find_link w (c_info c1) _); try apply RI.
    apply BI; [apply RI|]. intro. apply BI; [apply PI|intro; apply RI]. }
  assert (forall h, exists evs, snd (m2 h) = h ++ evs /\ Forall NP evs) as I2.
  { subst m2. destruct tags as [|t0 tags]; [apply RI|]. unfold publish_tags. apply BI; [apply NI|]. intro c1. destruct (find_link w (c_info c1) _) as [l|e|]; try apply RI.
    generalize (t0 :: tags). intro ts. induction ts as [|tg ts IH]; cbn [push_tags]; [apply RI|]. apply BI; [apply RI|]. intro. apply BI; [apply PI|]. intro. exact IH. }
  unfold abind at 1 in E. destruct (I1 h) as [e1 [X1 N1]]. destruct (m1 h) as [[a1|er|] h1]; cbn [snd] in X1; subst h1; cycle 1.
  1, 2: injection E as <- <-; apply app_inv_head in E1; exists e1, []; split; [rewrite app_nil_r; symmetry; exact E1|split; [exact N1|left; reflexivity]].
  unfold abind at 1 in E. destruct (I2 (h ++ e1)) as [e2 [X2 N2]]. destruct (m2 (h ++ e1)) as [[a2|er|] h2]; cbn [snd] in X2; subst h2; cycle 1.
  1, 2: injection E as <- <-; rewrite <- app_assoc in E1; apply app_inv_head in E1; exists (e1 ++ e2), []; split; [rewrite app_nil_r; symmetry; exact E1|split; [apply Forall_app; split; assumption|left; reflexivity]].
  exists (e1 ++ e2). assert (forall P : Prop, (forall post, h' = ((h ++ e1) ++ e2) ++ post -> (post = [] \/ exists q, post = [q] /\ br_method q = BPost /\ br_body q = Some payload) -> P) -> P) as K.
  { intros P K. unfold abind at 1, aret in E. destruct (find _ links) as [l|]; [|injection E as <- <-; apply (K []); [rewrite app_nil_r; reflexivity|left; reflexivity]].
    unfold send_document, abind, aret in E. destruct (url_ok (u_parse u (c_url c))) as [base|er|].
    2, 3: injection E as <- <-; apply (K []); [rewrite app_nil_r; reflexivity|left; reflexivity].
    destruct (if starts_with _ _ then _ else _) as [t|er|].
    2, 3: injection E as <- <-; apply (K []); [rewrite app_nil_r; reflexivity|left; reflexivity].
    unfold send in E. injection E as _ <-. eapply K; [reflexivity|]. right. eexists. split; [reflexivity|]. split; reflexivity. }
  apply K. intros post -> Q. rewrite <- !app_assoc in E1. apply app_inv_head in E1. exists post. split; [rewrite <- app_assoc; symmetry; exact E1|]. split; [apply Forall_app; split; assumption|exact Q].
Qed.

(** *** When the results have been published, so have the branch and all tags *)
Theorem C85_published : forall links broker_url auth payload version tags branch h j h', text_ok version -> Forall text_ok tags -> (forall b, branch = Some b -> text_ok b) ->
  publish_results w x uw u broker links broker_url auth payload version tags branch h = (Ok j, h') ->
  exists bs ts post l t, h' = h ++ bs ++ ts ++ [post] /\
    branch_published w x uw u broker broker_url auth links branch version h bs /\
    tags_published w x uw u broker broker_url auth links tags version (h ++ bs) ts /\
    (exists before after, links = before ++ l :: after /\ ascii_lower (l_name l) = S_ "pb:publish-verification-results" /\
       forall l', In l' before -> ascii_lower (l_name l') <> S_ "pb:publish-verification-results") /\
    sent_to u broker_url (match l_href l with Some s => s | None => [] end) t /\
    post = mkBR BPost t (credentials auth) (Some payload) /\ doc (h ++ bs ++ ts) post j.
Proof.
  intros links broker_url auth payload version tags branch h j h' TV TT TB E. unfold publish_results in E.
  set (c := with_url broker_url auth) in E.
  set (m1 := match branch with Some b => publish_branch w x uw u broker c links b version | None => aret u (Ok tt) end) in E.
  set (m2 := match tags with [] => aret u (Ok tt) | _ => publish_tags w x uw u broker c links tags version end) in E.
  unfold abind at 1 in E.
  assert (forall h1 a, m1 h = (Ok a, h1) ->
    exists bs, h1 = h ++ bs /\ branch_published w x uw u broker broker_url auth links branch version h bs) as K1.
  { intros h1 [] H. subst m1. destruct branch as [b|].
    - apply branch_ok in H; [exact H|apply TB; reflexivity|exact TV].
    - unfold aret in H. injection H as <-. exists []. split; [rewrite app_nil_r; reflexivity|reflexivity]. }
  destruct (m1 h) as [[a|e|] h1]; try discriminate. destruct (K1 h1 a eq_refl) as [bs [-> B]]. clear K1.
  unfold abind at 1 in E.
  assert (forall h2 a, m2 (h ++ bs) = (Ok a, h2) ->
    exists ts, h2 = (h ++ bs) ++ ts /\ tags_published w x uw u broker broker_url auth links tags version (h ++ bs) ts) as K2.
  { intros h2 [] H. subst m2. destruct tags as [|t0 tags].
    - unfold aret in H. injection H as <-. exists []. split; [rewrite app_nil_r; reflexivity|reflexivity].
    - apply tags_ok in H; [exact H|discriminate|exact TT|exact TV]. }
  destruct (m2 (h ++ bs)) as [[a2|e|] h2]; try discriminate. destruct (K2 h2 a2 eq_refl) as [ts [-> T]]. clear K2.
  unfold abind at 1, aret at 1 in E. pose proof (find_first _ (fun l => str_eqb (ascii_lower (l_name l)) publish_link_name) links) as F.
  destruct (find _ links) as [l|]; [|discriminate]. apply send_document_ok in E. destruct E as [t [S1 [-> D]]]. cbn [c_url c_auth with_url] in *.
  eexists bs, ts, _, l, t. split; [rewrite <- !app_assoc; reflexivity|]. split; [exact B|]. split; [exact T|]. split; [|split; [exact S1|split; [reflexivity|rewrite app_assoc; exact D]]].
  destruct F as [before [after [-> [Q N1]]]]. exists before, after. split; [reflexivity|]. split; [destruct (str_eqb_spec (ascii_lower (l_name l)) publish_link_name); [assumption|discriminate]|].
  intros l' I EQ. specialize (N1 l' I). cbn in N1. rewrite EQ in N1. change publish_link_name with (S_ "pb:publish-verification-results") in N1. rewrite str_eqb_refl in N1. discriminate.
Qed.
End Client.
