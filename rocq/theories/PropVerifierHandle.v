(** C111: how a verification run is configured, and what it returns. *)
From Coq Require Import Ascii String List Arith NArith ZArith Lia Bool.
From Verif Require Import Base PathExp Json Text TextProofs MatchingRules VerifierClient Verifier SpecVerifier Broker VerifierHandle SpecVerifierHandle.
Import ListNotations.
Open Scope N_scope.

Section Handle.
Variable lossy : list N -> str.
Variable parse_json : str -> option json.
Lemma arg_iff : forall c o, arg lossy c o <-> optional_str lossy c = o.
Proof.
  intros c o. destruct c as [b|]; cbn [optional_str].
  - set (t := match from_utf8 b with Some t => t | None => lossy b end). assert (R : forall u, reads lossy b u <-> u = t).
    { intro u. unfold reads, t. destruct (from_utf8 b) as [x|]; split; [intros [E|[E _]]; congruence | intros ->; left; reflexivity | intros [E|[_ E]]; congruence | intros ->; right; auto]. }
    split.
    + intro H. inversion H as [|b0 X|b0 u X NE]; subst; apply R in X; subst; rewrite <- ?X; [reflexivity|]. destruct t; [congruence | reflexivity].
    + intros <-. destruct t as [|a t'] eqn:E; [apply arg_empty, R; reflexivity | apply arg_text; [apply R; reflexivity | discriminate]].
  - split; [intro H; inversion H; reflexivity | intros <-; constructor].
Qed.
Lemma arg_if_null : forall c o d, arg lossy c o -> if_null lossy c d = text_or o d.
Proof. intros c o d A. apply arg_iff in A. unfold if_null. rewrite A. destruct o; reflexivity. Qed.
Lemma arg_nonempty : forall c (t : str), ~ arg lossy c (Some []).
Proof. intros c t A. inversion A. congruence. Qed.
Lemma arg_option : forall c o, arg lossy c o -> present (if_null lossy c []) = o.
Proof. intros c o A. rewrite (arg_if_null c o [] A). destruct o as [[|a t]|]; cbn [text_or]; [exfalso; exact (arg_nonempty c [] A) | reflexivity | reflexivity]. Qed.
Lemma arg_fun : forall c o1 o2, arg lossy c o1 -> arg lossy c o2 -> o2 = o1.
Proof. intros c o1 o2 A B. apply arg_iff in A, B. congruence. Qed.
Lemma arg_total : forall c, exists o, arg lossy c o.
Proof. intro c. eexists. apply arg_iff. reflexivity. Qed.
Lemma args_iff : forall l ts, args lossy l ts <-> get_vector lossy l = ts.
Proof.
  intros [l|] ts; [|split; [intro H; inversion H; reflexivity | intros <-; constructor]]. cbn [get_vector]. revert ts. induction l as [|c l IH]; intro ts.
  - split; [intro H; inversion H; reflexivity | intros <-; constructor].
  - cbn [flat_map]. destruct (arg_total c) as [o A]. pose proof (arg_if_null c o [] A) as E. rewrite E. split.
    + intro H. inversion H as [| |c0 t l0 ts0 A0 H0|c0 l0 ts0 A0 H0]; subst; apply IH in H0; rewrite <- H0; rewrite (arg_fun c _ _ A0 A); cbn [text_or app].
      * destruct t as [|a t]; [exfalso; exact (arg_nonempty c [] A0) | reflexivity].
      * reflexivity.
    + intros <-. destruct o as [[|a t]|]; cbn [text_or app]; [exfalso; exact (arg_nonempty c [] A) | apply args_text; [exact A | apply IH; reflexivity] | apply args_none; [exact A | apply IH; reflexivity]].
Qed.
Lemma needed_iff : forall c t, needed c t <-> safe_str c = Some t.
Proof. intros [b|] t; cbn [safe_str]; split; [intros (b0 & E & H); congruence | intro H; exists b; auto | intros (b0 & E & _); discriminate | discriminate]. Qed.
Lemma unusable_iff : forall c, unusable c <-> safe_str c = None.
Proof.
  intro c. split; [intro U; destruct (safe_str c) as [t|] eqn:E; [apply needed_iff in E; exfalso; exact (U t E) | reflexivity]|].
  intros E t Nd. apply needed_iff in Nd. congruence.
Qed.
Lemma auth_iff : forall u p t a, auth lossy u p t a <-> auth_of lossy u p t = a.
Proof.
  intros u p t a. destruct (arg_total u) as [ou Au], (arg_total p) as [op Ap], (arg_total t) as [ot At]. unfold auth_of.
  rewrite (arg_if_null u ou [] Au). rewrite (arg_if_null p op [] Ap). split.
  - intro H. inversion H as [? ? ? n pw A1 A2|? ? ? tok A1 A2|? ? ? A1 A2]; subst; rewrite (arg_fun u _ _ A1 Au); cbn [text_or].
    + rewrite <- (arg_fun p _ _ A2 Ap) in *. destruct n; [exfalso; exact (arg_nonempty u [] A1)|]. destruct op as [[|y k]|]; [exfalso; exact (arg_nonempty p [] Ap) | reflexivity | reflexivity].
    + rewrite (arg_if_null t _ [] A2). cbn [text_or]. destruct tok; [exfalso; exact (arg_nonempty t [] A2) | reflexivity].
    + rewrite (arg_if_null t _ [] A2). reflexivity.
  - intros <-. destruct ou as [[|x n]|]; cbn [text_or]; [exfalso; exact (arg_nonempty u [] Au) | destruct op as [[|y k]|]; [exfalso; exact (arg_nonempty p [] Ap) | apply auth_user; assumption | apply auth_user; assumption]|].
    rewrite (arg_if_null t _ [] At). destruct ot as [[|y k]|]; cbn [text_or]; [exfalso; exact (arg_nonempty t [] At) | apply auth_token; assumption | apply auth_none; assumption].
Qed.
Lemma selectors_iff : forall l ss, selectors_given l ss <-> json_to_selectors l = ss.
Proof.
  induction l as [|j l IH]; intro ss; [split; [intro H; inversion H; reflexivity | intros <-; constructor]|]. unfold json_to_selectors in *. cbn [flat_map]. split.
  - intro H. inversion H as [|j0 s l0 ss0 D H0|j0 l0 ss0 D H0]; subst; apply IH in H0; rewrite D, H0; reflexivity.
  - intros <-. destruct (de_selector j) as [s|] eqn:D; cbn [app]; [apply sg_one; [exact D | apply IH; reflexivity] | apply sg_skip; [exact D | apply IH; reflexivity]].
Qed.
Lemma all_some_iff : forall {A B} (f : A -> option B) l ys, all_some (map f l) = Some ys <-> Forall2 (fun x y => f x = Some y) l ys.
Proof.
  intros A B f. induction l as [|x l IH]; intro ys; cbn [map all_some]; [split; [intro H; injection H as <-; constructor | intro H; inversion H; reflexivity]|].
  destruct (f x) as [y|] eqn:E.
  - destruct (all_some (map f l)) as [zs|] eqn:F.
    + split; [intro H; injection H as <-; constructor; [exact E | apply IH; reflexivity]|]. intro H. inversion H as [|? y0 ? ys0 E0 H0]; subst. apply IH in H0. injection H0 as <-. assert (Q : y0 = y) by congruence. rewrite Q. reflexivity.
    + split; [discriminate|]. intro H. inversion H as [|? y0 ? ys0 E0 H0]; subst. apply IH in H0. discriminate.
  - split; [discriminate | intro H; inversion H; congruence].
Qed.
Lemma all_some_none : forall {A B} (f : A -> option B) l, all_some (map f l) = None <-> exists x, In x l /\ f x = None.
Proof.
  intros A B f. induction l as [|x l IH]; cbn [map all_some]; [split; [discriminate | intros (x & [] & _)]|]. destruct (f x) as [y|] eqn:E.
  - destruct (all_some (map f l)) as [zs|].
    + split; [discriminate|]. intros (z & [<-|J] & Z); [congruence|]. discriminate (proj2 IH (ex_intro _ z (conj J Z))).
    + split; [|reflexivity]. intros _. destruct (proj1 IH eq_refl) as (z & J & Z). exists z. split; [right; exact J | exact Z].
  - split; [intros _; exists x; split; [left; reflexivity | exact E] | reflexivity].
Qed.

(** ** One call *)
Definition apply_saying (s : saying) (c : config) : config :=
  match s with
  | SayProvider n sc h port p => with_provider c (mkProvider n sc h port p [mkTransport sc port (Some p) (Some sc)])
  | SayTransport t => with_provider c (add_transport (c_provider c) t)
  | SayFilter d s n => with_filter c (wanted d s n)
  | SayState u t b => with_state c u t b
  | SayOptions b t => with_options c b t
  | SayColoured b => with_coloured c b
  | SayNoPacts b => with_no_pacts c b
  | SayPublish p => with_publish c p
  | SayConsumers l => with_consumers c l
  | SayHeader n v => with_header c n v
  | SaySource s => with_source c s
  | SayBroker url pe wip tags br sel a => with_source c (SrcBroker (p_name (c_provider c)) url pe wip tags br sel a)
  | SayNothing => c
  end.
Definition sensible (s : saying) : Prop := match s with SayProvider n sc h port p => sc <> [] /\ p <> [] | _ => True end.
Lemma flag_neg : forall n, flag n = negb (n =? 0).
Proof. intro n. unfold flag. destruct (N.eqb_spec n 0) as [->|NE]; [reflexivity|]. apply N.ltb_lt. lia. Qed.
Lemma text_or_ne : forall c o d, arg lossy c o -> d <> [] -> text_or o d <> [].
Proof. intros c [t|] d A ND; cbn [text_or]; [|exact ND]. intros ->. exact (arg_nonempty c [] A). Qed.
Lemma filter_wanted : forall c1 c2 d s n, arg lossy c1 d -> arg lossy c2 s -> filter_of (text_or d []) (text_or s []) n = wanted d s n.
Proof.
  intros c1 c2 d s n A1 A2. destruct d as [[|x d]|], s as [[|y s]|]; try (exfalso; exact (arg_nonempty _ [] A1)); try (exfalso; exact (arg_nonempty _ [] A2)); reflexivity.
Qed.
Lemma mkHandle_eta : forall h, mkHandle (vh_config h) (vh_app h) (vh_report h) = h.
Proof. intros []. reflexivity. Qed.
Lemma says_step : forall c s r h, says lossy parse_json c s r ->
  step lossy parse_json h c = (mkHandle (apply_saying s (vh_config h)) (vh_app h) (vh_report h), r) /\ sensible s.
Proof.
  intros c s r h H. destruct H; cbn [step apply_saying sensible]; unfold need, broker, settle; rewrite ?flag_neg; split; try exact Logic.I.
  - rewrite (arg_if_null _ _ _ H), (arg_if_null _ _ _ H0), (arg_if_null _ _ _ H1), (arg_if_null _ _ _ H2). unfold provider_set. cbv zeta.
    pose proof (text_or_ne s s' (S_ "http") H0 ltac:(discriminate)) as N1. pose proof (text_or_ne p p' (S_ "/") H2 ltac:(discriminate)) as N2.
    destruct (text_or s' (S_ "http")); [congruence|]. destruct (text_or p' (S_ "/")); [congruence|]. reflexivity.
  - split; [exact (text_or_ne s s' (S_ "http") H0 ltac:(discriminate)) | exact (text_or_ne p p' (S_ "/") H2 ltac:(discriminate))].
  - rewrite (arg_if_null _ _ _ H), (arg_if_null _ _ _ H0). apply arg_iff in H1. rewrite H1.
    pose proof (text_or_ne p p' (S_ "/") H0 ltac:(discriminate)) as N2. destruct (text_or p' (S_ "/")); [congruence|]. reflexivity.
  - rewrite (arg_if_null _ _ _ H), (arg_if_null _ _ _ H0), (filter_wanted d s d' s'); [reflexivity | assumption | assumption].
  - rewrite (arg_option _ _ H). reflexivity.
  - reflexivity.
  - reflexivity.
  - reflexivity.
  - apply needed_iff in H. rewrite H. apply arg_iff in H0, H2. apply args_iff in H1. rewrite H0, H1, H2. reflexivity.
  - apply unusable_iff in H. rewrite H, mkHandle_eta. reflexivity.
  - apply args_iff in H. rewrite H. reflexivity.
  - apply needed_iff in H, H0. rewrite H, H0. reflexivity.
  - rewrite mkHandle_eta. destruct H as [H|H]; apply unusable_iff in H; rewrite H; [reflexivity|]. destruct (safe_str n); reflexivity.
  - apply needed_iff in H. rewrite H. reflexivity.
  - apply unusable_iff in H. rewrite H, mkHandle_eta. reflexivity.
  - apply needed_iff in H. rewrite H. reflexivity.
  - apply unusable_iff in H. rewrite H, mkHandle_eta. reflexivity.
  - apply needed_iff in H. apply auth_iff in H0. rewrite H, H0. reflexivity.
  - apply unusable_iff in H. rewrite H, mkHandle_eta. reflexivity.
  - apply needed_iff in H. apply auth_iff in H0. rewrite H, H0. reflexivity.
  - apply unusable_iff in H. rewrite H, mkHandle_eta. reflexivity.
  - apply needed_iff in H. apply auth_iff in H0. apply args_iff in H2, H4. rewrite H, H0, H2, H4, (arg_option _ _ H1). apply all_some_iff in H6. apply selectors_iff in H7.
    assert (RS : read_selectors parse_json texts = Some ss) by (unfold read_selectors; rewrite H6; cbn [option_map]; rewrite H7; reflexivity).
    destruct texts as [|t0 texts]; [congruence|]. rewrite RS.
    destruct H3 as [[-> ->]|(b & Nb & ->)]; [reflexivity|]. destruct br as [bs|]; [|destruct Nb as (? & Z & _); discriminate]. apply needed_iff in Nb. rewrite Nb. reflexivity.
  - apply needed_iff in H. apply auth_iff in H0. apply args_iff in H2, H4, H5. rewrite H, H0, H2, H4, H5, (arg_option _ _ H1).
    destruct H3 as [[-> ->]|(b & Nb & ->)]; [reflexivity|]. destruct br as [bs|]; [|destruct Nb as (? & Z & _); discriminate]. apply needed_iff in Nb. rewrite Nb. reflexivity.
  - destruct H as [x H]. apply needed_iff in H. apply args_iff in H1. rewrite H, H1, mkHandle_eta.
    assert (RS : read_selectors parse_json texts = None). { unfold read_selectors. apply (all_some_none parse_json texts) in H2. rewrite H2. reflexivity. }
    destruct texts as [|t0 texts]; [destruct H2 as (? & [] & _)|]. rewrite RS.
    destruct br as [bs|]; [|reflexivity]. destruct H0 as [Z|(b & Nb)]; [discriminate|]. apply needed_iff in Nb. rewrite Nb. reflexivity.
  - rewrite mkHandle_eta. destruct H as [H|[NB H]]; apply unusable_iff in H; rewrite H; [reflexivity|]. destruct (safe_str url); [|reflexivity]. destruct br; [|congruence]. reflexivity.
Qed.
(** Every call but that to run the verifier says something. *)
Lemma says_total : forall c, (forall run, c <> CExecute run) -> exists s r, says lossy parse_json c s r.
Proof.
  intros c NX. assert (ND : forall x, (exists t, needed x t) \/ unusable x).
  { intro x. destruct (safe_str x) as [t|] eqn:E; [left; exists t; apply needed_iff, E | right; apply unusable_iff, E]. }
  assert (AR : forall x, exists ts, args lossy x ts) by (intro x; eexists; apply args_iff; reflexivity).
  assert (AU : forall u p t, exists a, auth lossy u p t a) by (intros; eexists; apply auth_iff; reflexivity).
  destruct c as [n s h port p|pr port p s|d s n|u t b|d t|b|b|v u ts b|l|n v|f|d|url u p t|url u p t|url u p t pe wip tags br sel ct|run].
  - destruct (arg_total n), (arg_total s), (arg_total h), (arg_total p). eexists. eexists. econstructor; eassumption.
  - destruct (arg_total pr), (arg_total p), (arg_total s). eexists. eexists. econstructor; eassumption.
  - destruct (arg_total d), (arg_total s). eexists. eexists. econstructor; eassumption.
  - destruct (arg_total u). eexists. eexists. econstructor; eassumption.
  - eexists. eexists. constructor.
  - eexists. eexists. constructor.
  - eexists. eexists. constructor.
  - destruct (ND v) as [[v' Hv]|Hv]; [|eexists; eexists; apply sy_publish_wrong; exact Hv]. destruct (arg_total u), (AR ts), (arg_total b). eexists. eexists. eapply sy_publish; eassumption.
  - destruct (AR l). eexists. eexists. econstructor; eassumption.
  - destruct (ND n) as [[n' Hn]|Hn]; [|eexists; eexists; apply sy_header_wrong; left; exact Hn]. destruct (ND v) as [[v' Hv]|Hv]; [|eexists; eexists; apply sy_header_wrong; right; exact Hv].
    eexists. eexists. eapply sy_header; eassumption.
  - destruct (ND f) as [[f' Hf]|Hf]; eexists; eexists; [eapply sy_file | eapply sy_file_wrong]; eassumption.
  - destruct (ND d) as [[f' Hf]|Hf]; eexists; eexists; [eapply sy_dir | eapply sy_dir_wrong]; eassumption.
  - destruct (AU u p t). destruct (ND url) as [[f' Hf]|Hf]; eexists; eexists; [eapply sy_url | eapply sy_url_wrong]; eassumption.
  - destruct (AU u p t). destruct (ND url) as [[f' Hf]|Hf]; eexists; eexists; [eapply sy_broker | eapply sy_broker_wrong]; eassumption.
  - destruct (ND url) as [[url' Hu]|Hu]; [|eexists; eexists; apply sy_selectors_text; left; exact Hu].
    assert (BR : (br = None /\ exists x : option str, x = None) \/ (exists b, needed br b) \/ (br <> None /\ unusable br)).
    { destruct br as [bs|]; [|left; split; [reflexivity | exists None; reflexivity]]. right. destruct (ND (Some bs)) as [[b Hb]|Hb]; [left; exists b; exact Hb | right; split; [discriminate | exact Hb]]. }
    destruct BR as [[B _]|[[b B]|B]]; [| |eexists; eexists; apply sy_selectors_text; right; exact B].
    + destruct (AU u p t) as [a Ha], (arg_total wip) as [w' Hw], (AR tags) as [tg Ht], (AR sel) as [sl Hs], (AR ct) as [cts Hc]. destruct sl as [|s0 sl].
      * eexists. eexists. eapply sy_tags; try eassumption. left. split; [exact B | reflexivity].
      * destruct (all_some (map parse_json (s0 :: sl))) as [docs|] eqn:E.
        -- apply all_some_iff in E. eexists. eexists. eapply sy_selectors; try eassumption; [left; split; [exact B | reflexivity] | discriminate | apply selectors_iff; reflexivity].
        -- apply all_some_none in E. eexists. eexists. eapply sy_selectors_wrong; try eassumption; [exists url'; exact Hu | left; exact B].
    + destruct (AU u p t) as [a Ha], (arg_total wip) as [w' Hw], (AR tags) as [tg Ht], (AR sel) as [sl Hs], (AR ct) as [cts Hc]. destruct sl as [|s0 sl].
      * eexists. eexists. eapply sy_tags; try eassumption. right. exists b. split; [exact B | reflexivity].
      * destruct (all_some (map parse_json (s0 :: sl))) as [docs|] eqn:E.
        -- apply all_some_iff in E. eexists. eexists. eapply sy_selectors; try eassumption; [right; exists b; split; [exact B | reflexivity] | discriminate | apply selectors_iff; reflexivity].
        -- apply all_some_none in E. eexists. eexists. eapply sy_selectors_wrong; try eassumption; [exists url'; exact Hu | right; exists b; exact B].
  - exfalso. exact (NX run eq_refl).
Qed.

(** ** Histories *)
Lemma setting_snoc : forall {A} (on : saying -> option A) start l x a,
  setting on start l a -> setting on start (l ++ [x]) (match on x with Some b => b | None => a end).
Proof.
  intros A on start l x a H. destruct (on x) as [b|] eqn:E; [exact (set_last on start l x [] b E ltac:(intros y []))|].
  destruct H as [l1 y l2 a Ey Nl|l Nl].
  - rewrite <- app_assoc. cbn [app]. apply set_last; [exact Ey|]. intros z J. apply in_app_or in J as [J|[<-|[]]]; [exact (Nl z J) | exact E].
  - apply set_never. intros z J. apply in_app_or in J as [J|[<-|[]]]; [exact (Nl z J) | exact E].
Qed.
Lemma transports_app : forall a b, transports (a ++ b) = transports a ++ transports b.
Proof. intros a b. apply flat_map_app. Qed.
Lemma provider_snoc : forall l p x c, provider_after l p -> c_provider c = p -> sensible x -> provider_after (l ++ [x]) (c_provider (apply_saying x c)).
Proof.
  intros l p x c H E SX. assert (K : is_provider x = false -> transports [x] = [] -> provider_after (l ++ [x]) p).
  { intros NP NT. destruct H as [l1 n s h port q l2 Nl Ns Nq|l Nl].
    - rewrite <- app_assoc. cbn [app]. replace (transports l2) with (transports (l2 ++ [x])) by (rewrite transports_app, NT; apply app_nil_r).
      apply pa_set; [|exact Ns | exact Nq]. intros z J. apply in_app_or in J as [J|[<-|[]]]; [exact (Nl z J) | exact NP].
    - replace (transports l) with (transports (l ++ [x])) by (rewrite transports_app, NT; apply app_nil_r). apply pa_never. intros z J. apply in_app_or in J as [J|[<-|[]]]; [exact (Nl z J) | exact NP]. }
  destruct x; cbn [apply_saying with_provider with_source with_filter with_consumers with_options with_header with_coloured with_no_pacts with_publish with_state c_provider];
    try (rewrite E; apply K; reflexivity).
  - destruct SX as [N1 N2]. apply (pa_set l name scheme host port path []); [intros y [] | exact N1 | exact N2].
  - rewrite E. clear K. destruct H as [l1 n s h port q l2 Nl Ns Nq|l Nl]; unfold add_transport; cbn [p_name p_protocol p_host p_port p_path p_transports].
    + rewrite <- app_assoc. cbn [app]. replace (transports l2 ++ [t]) with (transports (l2 ++ [SayTransport t])) by apply transports_app.
      apply pa_set; [|exact Ns | exact Nq]. intros z J. apply in_app_or in J as [J|[<-|[]]]; [exact (Nl z J) | reflexivity].
    + replace (transports l ++ [t]) with (transports (l ++ [SayTransport t])) by apply transports_app. apply pa_never. intros z J. apply in_app_or in J as [J|[<-|[]]]; [exact (Nl z J) | reflexivity].
Qed.
Lemma amounts_snoc : forall l x c, amounts_to l c -> sensible x -> amounts_to (l ++ [x]) (apply_saying x c).
Proof.
  intros l x c H SX. destruct H as [A1 A2 A3 A4 A5 A6 A7 A8 A9 A10]. constructor.
  - exact (provider_snoc l _ x c A1 eq_refl SX).
  - destruct x; cbn [apply_saying]; try (apply sa_other; [exact A2 | discriminate | discriminate]).
    + apply sa_source. exact A2.
    + apply sa_broker; assumption.
  - pose proof (setting_snoc on_filter FNone l x _ A3) as Q. destruct x; exact Q.
  - pose proof (setting_snoc on_consumers [] l x _ A4) as Q. destruct x; exact Q.
  - pose proof (setting_snoc on_options (false, 5000) l x _ A5) as Q. destruct x; exact Q.
  - intro n. pose proof (setting_snoc (on_header n) None l x _ (A6 n)) as Q. destruct x; try exact Q. cbn [apply_saying with_header c_headers on_header] in *.
    rewrite obj_insert_get. destruct (str_eqb_spec name n) as [->|NE]; [rewrite str_eqb_refl; exact Q|]. destruct (str_eqb_spec n name); [congruence|]. exact Q.
  - pose proof (setting_snoc on_coloured true l x _ A7) as Q. destruct x; exact Q.
  - pose proof (setting_snoc on_no_pacts true l x _ A8) as Q. destruct x; exact Q.
  - pose proof (setting_snoc on_publish None l x _ A9) as Q. destruct x; exact Q.
  - pose proof (setting_snoc on_state (None, false, true) l x _ A10) as Q. destruct x; exact Q.
Qed.
Definition is_execute (c : call) : Prop := exists run, c = CExecute run.
(** What the calls of a history say; to run the verifier says nothing. *)
Definition history (cs : list call) (l : list saying) : Prop :=
  Forall2 (fun c s => is_execute c /\ s = SayNothing \/ exists r, says lossy parse_json c s r) cs l.
Lemma history_total : forall cs, exists l, history cs l.
Proof.
  induction cs as [|c cs [l IH]]; [exists []; constructor|]. destruct c as [n s h port p|pr port p s|d s n|u t b|d t|b|b|v u ts b|xs|n v|f|d|url u p t|url u p t|url u p t pe wip tags br sel ct|run];
    try (match goal with |- exists l, history (?c :: _) l => destruct (says_total c ltac:(discriminate)) as (s0 & r & H) end; exists (s0 :: l); constructor; [right; exists r; exact H | exact IH]).
  exists (SayNothing :: l). constructor; [left; split; [exists run; reflexivity | reflexivity] | exact IH].
Qed.
Lemma config_start : amounts_to [] default_config.
Proof.
  constructor; try (intros; apply set_never; intros y []).
  - apply (pa_never []). intros y [].
  - constructor.
Qed.
Lemma execute_config : forall h run, vh_config (fst (execute h run)) = vh_config h.
Proof. intros h run. unfold execute. destruct (run (vh_config h)); reflexivity. Qed.
(** The configuration a run is started with, after any history of calls: the last that was said on each matter; the sources in their
    order, brokers with the provider's name at the time; the transports added since the provider was set. *)
Theorem C111_configuration : forall app cs,
  (exists l, history cs l) /\ (forall l, history cs l -> amounts_to l (vh_config (run_calls lossy parse_json (new_handle app) cs))) /\
  vh_app (run_calls lossy parse_json (new_handle app) cs) = app.
Proof.
  intros app cs. split; [apply history_total|]. assert (G : forall cs l h l0, history cs l -> amounts_to l0 (vh_config h) ->
    amounts_to (l0 ++ l) (vh_config (run_calls lossy parse_json h cs)) /\ vh_app (run_calls lossy parse_json h cs) = vh_app h).
  { clear. induction cs as [|c cs IH]; intros l h l0 H A; inversion H as [|? s ? l' S1 S2]; subst.
    - rewrite app_nil_r. split; [exact A | reflexivity].
    - replace (l0 ++ s :: l') with ((l0 ++ [s]) ++ l') by (rewrite <- app_assoc; reflexivity). cbn [run_calls fold_left].
      destruct S1 as [[[run ->] ->]|[r S1]].
      + cbn [step]. destruct (IH l' (fst (execute h run)) (l0 ++ [SayNothing]) S2) as [I1 I2].
        * rewrite execute_config. exact (amounts_snoc l0 SayNothing (vh_config h) A Logic.I).
        * split; [exact I1|]. etransitivity; [exact I2|]. unfold execute. destruct (run (vh_config h)); reflexivity.
      + destruct (says_step c s r h S1) as [E SS]. rewrite E. cbn [fst].
        destruct (IH l' (mkHandle (apply_saying s (vh_config h)) (vh_app h) (vh_report h)) (l0 ++ [s]) S2) as [I1 I2]; [cbn [vh_config]; exact (amounts_snoc l0 s _ A SS)|]. split; [exact I1 | exact I2]. }
  split.
  - intros l H. destruct (G cs l (new_handle app) [] H config_start) as [G1 _]. exact G1.
  - destruct (history_total cs) as [l H]. destruct (G cs l (new_handle app) [] H config_start) as [_ G2]. exact G2.
Qed.
(** What each call returns, and that it leaves the last report alone. *)
Theorem C111_returns : forall h c s r, says lossy parse_json c s r ->
  snd (step lossy parse_json h c) = r /\ vh_report (fst (step lossy parse_json h c)) = vh_report h /\ (s = SayNothing -> fst (step lossy parse_json h c) = h).
Proof.
  intros h c s r H. destruct (says_step c s r h H) as [E _]. rewrite E. split; [reflexivity|]. split; [reflexivity|]. intros ->. cbn. apply mkHandle_eta.
Qed.
End Handle.
