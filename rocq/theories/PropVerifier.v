(** C77-C80: the verification of a provider. *)
From Coq Require Import Ascii String List Arith NArith ZArith Lia Bool Sorted.
From Verif Require Import Base PathExp Json Text MatchingRules Matchers JsonCompare Headers Query ContentType Http Merge
  VerifierClient Verifier SpecVerifier.
Import ListNotations.
Open Scope N_scope.

(** * C77: filters *)
Section Filters.
Variable w : world.

Lemma any_match_ok : forall pattern l b, any_match w pattern l = Ok b ->
  (b = true <-> exists t, In t l /\ regex_match w pattern t = Some true).
Proof.
  intros pattern. induction l as [|t l IH]; intros b H; cbn [any_match] in H.
  - injection H as <-. split; [discriminate|]. intros (t & [] & _).
  - unfold is_match in H. destruct (regex_match w pattern t) as [m|] eqn:M; cbn [bind] in H; [|discriminate].
    destruct m.
    + injection H as <-. split; [|reflexivity]. intros _. exists t. split; [left; reflexivity|exact M].
    + specialize (IH b H). rewrite IH. split; intros (u & I & R).
      * exists u. split; [right; exact I|exact R].
      * destruct I as [<-|I]; [congruence|]. exists u. split; assumption.
Qed.

Lemma match_state_ok : forall f i b, has_state f = true -> match_state w f i = Ok b -> (b = true <-> state_wanted w (f_state f) i).
Proof.
  intros f i b Hs H. unfold match_state in H. unfold state_wanted.
  destruct (i_states i) as [|s0 l] eqn:E; cbn [nonempty] in H.
  - rewrite Hs in H. injection H as <-. destruct (f_state f); cbn [nonempty negb andb].
    + split; [intros _; left; auto|reflexivity].
    + split; [discriminate|]. intros [[X _]|[_ (s1 & [] & _)]]. discriminate.
  - destruct (f_state f) as [|c p] eqn:F; cbn [nonempty] in H.
    + injection H as <-. split; [discriminate|]. intros [[_ X]|[X _]]; [discriminate|congruence].
    + apply any_match_ok in H. rewrite H. unfold names. split.
      * intros (t & I & R). right. split; [discriminate|]. apply in_map_iff in I. destruct I as (s & <- & I). exists s. split; assumption.
      * intros [[X _]|[_ (s & I & R)]]; [discriminate|]. exists (st_name s). split; [apply in_map; exact I|exact R].
Qed.

(** C77: the filter lets through exactly the interactions whose description matches and which have a matching state. *)
Theorem C77_filter : forall f i b, filter_interaction w f i = Ok b -> (b = true <-> selected w f i).
Proof.
  intros f i b H. unfold filter_interaction in H.
  destruct f as [|d|s|d s]; cbn [has_description has_state andb] in H.
  - injection H as <-. split; [exact (fun _ => Logic.I)|reflexivity].
  - unfold match_description, is_match in H. cbn [f_description] in H. cbn [selected]. unfold description_wanted.
    destruct (regex_match w d (i_desc i)) as [m|]; [|discriminate]. injection H as <-. destruct m; split; intro X; congruence.
  - apply match_state_ok in H; [exact H|reflexivity].
  - unfold match_description, is_match in H. cbn [f_description] in H. cbn [selected]. unfold description_wanted.
    destruct (regex_match w d (i_desc i)) as [m|]; cbn [bind] in H; [|discriminate]. destruct m.
    + apply match_state_ok in H; [|reflexivity]. cbn [f_state] in H. rewrite H. split; [intro X; split; [reflexivity|exact X]|intros [_ X]; exact X].
    + injection H as <-. split; [discriminate|intros [X _]; discriminate].
Qed.

Lemma any_match_total : forall pattern l, pattern_ok w pattern -> exists b, any_match w pattern l = Ok b.
Proof.
  intros pattern l P. induction l as [|t l [b IH]]; [exists false; reflexivity|]. cbn [any_match]. unfold is_match. specialize (P t).
  destruct (regex_match w pattern t) as [[|]|]; [exists true; reflexivity| |congruence]. cbn [bind]. exists b. exact IH.
Qed.
Lemma match_state_total : forall f i, pattern_ok w (f_state f) -> exists b, match_state w f i = Ok b.
Proof.
  intros f i P. unfold match_state. destruct (nonempty (i_states i)); [|eexists; reflexivity].
  destruct (nonempty (f_state f)); [|eexists; reflexivity]. apply any_match_total, P.
Qed.
Lemma match_description_total : forall f i, pattern_ok w (f_description f) -> exists b, match_description w f i = Ok b.
Proof.
  intros f i P. unfold match_description, is_match. specialize (P (i_desc i)).
  destruct (regex_match w (f_description f) (i_desc i)) as [b|]; [exists b; reflexivity|congruence].
Qed.
(** C77: with patterns that are regular expressions it always decides. *)
Theorem C77_filter_decides : forall f i, filter_ok w f -> exists b, filter_interaction w f i = Ok b.
Proof.
  intros f i P. unfold filter_interaction. destruct f as [|d|s|d s]; cbn [has_description has_state andb filter_ok] in *.
  - eexists; reflexivity.
  - apply match_description_total, P.
  - apply match_state_total, P.
  - destruct P as [P1 P2]. destruct (match_description_total (FDescriptionAndState d s) i P1) as [b ->]. cbn [bind].
    destruct b; [|eexists; reflexivity]. apply match_state_total, P2.
Qed.
(** C77 (why): a pattern that is none stops the whole run with a panic, as soon as an interaction is looked at that needs it. *)
Theorem C77_why_bad_pattern : forall i,
  (forall d, pattern_bad w d -> filter_interaction w (FDescription d) i = Panic /\ forall s, filter_interaction w (FDescriptionAndState d s) i = Panic) /\
  (forall s, pattern_bad w s -> s <> [] -> i_states i <> [] -> filter_interaction w (FState s) i = Panic) /\
  (forall s, s <> [] -> i_states i = [] -> filter_interaction w (FState s) i = Ok false).
Proof.
  intro i. split; [|split].
  - intros d B. unfold filter_interaction, match_description, is_match. cbn [has_description has_state andb f_description]. rewrite (B (i_desc i)).
    split; reflexivity.
  - intros s B N S. unfold filter_interaction, match_state. cbn [has_description has_state andb f_state].
    destruct (i_states i) as [|s0 l]; [congruence|]. cbn [nonempty]. destruct s; [congruence|]. cbn [nonempty names map any_match]. unfold is_match. rewrite B. reflexivity.
  - intros s N E. unfold filter_interaction, match_state. cbn [has_description has_state andb f_state]. rewrite E. cbn [nonempty]. destruct s; [congruence|]. reflexivity.
Qed.
End Filters.

(** * C78: one interaction *)

Lemma insert_all_json_get : forall k l m,
  obj_get k (insert_all_json l m) = match last_entry k l with Some v => Some v | None => obj_get k m end.
Proof.
  intros k. unfold insert_all_json. induction l as [|[k' v] l IH]; intro m; [reflexivity|]. cbn [fold_left last_entry fst snd].
  rewrite IH. destruct (last_entry k l); [reflexivity|]. rewrite obj_insert_get. destruct (str_eqb k k'); reflexivity.
Qed.
Lemma last_entry_app : forall A k (a b : list (str * A)),
  last_entry k (a ++ b) = match last_entry k b with Some v => Some v | None => last_entry k a end.
Proof.
  intros A k. induction a as [|[k' v] a IH]; intro b; cbn [app last_entry]; [destruct (last_entry k b); reflexivity|].
  rewrite IH. destruct (last_entry k b); reflexivity.
Qed.
Lemma fold_insert_get : forall A (f : A -> list (str * json)) k l m,
  obj_get k (fold_left (fun m a => insert_all_json (f a) m) l m) =
  match last_entry k (flat_map f l) with Some v => Some v | None => obj_get k m end.
Proof.
  intros A f k. induction l as [|a l IH]; intro m; [reflexivity|]. cbn [fold_left flat_map]. rewrite IH, insert_all_json_get, last_entry_app.
  destruct (last_entry k (flat_map f l)); [reflexivity|]. destruct (last_entry k (f a)); reflexivity.
Qed.
Lemma flat_map_id : forall A (l : list (list A)), flat_map (fun x => x) l = concat l.
Proof. induction l as [|a l IH]; [reflexivity|]. cbn [flat_map concat]. rewrite IH. reflexivity. Qed.

Lemma insert_all_sorted : forall l m, StronglySorted str_lt (keys m) -> StronglySorted str_lt (keys (insert_all_json l m)).
Proof. unfold insert_all_json. induction l as [|e l IH]; intros m H; [exact H|]. cbn [fold_left]. apply IH, obj_insert_sorted, H. Qed.
Lemma folded_nodup : forall maps, NoDup (keys (fold_left (fun m l => insert_all_json l m) maps [])).
Proof.
  intro maps. apply sorted_nodup. assert (N0 : StronglySorted str_lt (keys ([] : list (str * json)))) by constructor.
  revert N0. generalize ([] : list (str * json)). induction maps as [|l maps IH]; intros m H; [exact H|]. cbn [fold_left]. apply IH, insert_all_sorted, H.
Qed.
Lemma last_entry_nodup : forall k (m : list (str * json)), NoDup (keys m) -> last_entry k m = obj_get k m.
Proof.
  intros k. induction m as [|[k' v] m IH]; intro H; [reflexivity|]. unfold keys in H. cbn [map fst] in H. inversion H as [|? ? H1 H2]; subst.
  cbn [last_entry obj_get]. rewrite (IH H2). destruct (str_eqb_spec k k') as [->|Ne]; [|destruct (obj_get k m); reflexivity].
  destruct (obj_get k' m) as [u|] eqn:G; [|reflexivity]. exfalso. apply H1. apply obj_get_in in G. apply in_map_iff. exists (k', u). split; [reflexivity|exact G].
Qed.

Section Verified.
Variable w : world.
Variable x : externals.
Variable cx : client_externals.
Variable env : environment.
Variable st : settings.

Lemma call_handlers_ok : forall id setup l h r h', call_handlers env id setup l h = Ok (r, h') ->
  h' = h ++ map (fun s => EState id s setup) l /\ length r = length l /\
  forall k s, nth_error l k = Some s -> nth_error r k = Some (handler env (h ++ firstn k (map (fun s => EState id s setup) l)) id s setup).
Proof.
  intros id setup. induction l as [|s0 l IH]; intros h r h' H.
  - injection H as <- <-. rewrite app_nil_r. split; [reflexivity|]. split; [reflexivity|]. intros [|k] s E; discriminate.
  - cbn [call_handlers] in H. unfold rbind at 1, execute_state_change in H. cbn [bind fst snd] in H. unfold rbind in H.
    destruct (call_handlers env id setup l (h ++ [EState id s0 setup])) as [[rs h1]|e|] eqn:C; cbn [bind fst snd] in H; try discriminate.
    injection H as <- <-. destruct (IH _ _ _ C) as (-> & L & N). split; [rewrite <- app_assoc; reflexivity|]. split; [cbn [length]; rewrite L; reflexivity|].
    intros [|k] s E; cbn [nth_error] in *.
    + injection E as <-. cbn [firstn]. rewrite app_nil_r. reflexivity.
    + rewrite (N k s E). cbn [map firstn]. rewrite <- app_assoc. reflexivity.
Qed.
Lemma call_handlers_total : forall id setup l h, exists r, call_handlers env id setup l h = Ok r.
Proof.
  intros id setup. induction l as [|s0 l IH]; intro h; [eexists; reflexivity|]. cbn [call_handlers]. unfold rbind at 1, execute_state_change. cbn [bind fst snd].
  unfold rbind. destruct (IH (h ++ [EState id s0 setup])) as [[rs h1] ->]. eexists. reflexivity.
Qed.
Lemma all_some_some : forall A (l : list (option A)) l', all_some l = Some l' -> l = map Some l'.
Proof.
  induction l as [|[a|] l IH]; intros l' H; cbn [all_some] in H; [injection H as <-; reflexivity| |discriminate].
  destruct (all_some l) as [m|]; [|discriminate]. injection H as <-. cbn [map]. rewrite <- (IH m eq_refl). reflexivity.
Qed.
Lemma all_some_none : forall A (l : list (option A)), all_some l = None -> In None l.
Proof.
  induction l as [|[a|] l IH]; intro H; cbn [all_some] in H; [discriminate| |left; reflexivity].
  destruct (all_some l); [discriminate|]. right. exact (IH eq_refl).
Qed.

Lemma states_run : forall i setup h r h', execute_provider_states env i setup h = Ok (r, h') ->
  h' = h ++ calls i setup /\ exists answers, handler_answers env i setup h answers /\
  ((In None answers /\ r = None) \/
   exists maps, answers = map Some maps /\ exists m, r = Some m /\ NoDup (keys m) /\ forall k, obj_get k m = last_entry k (concat maps)).
Proof.
  intros i setup h r h' H. unfold execute_provider_states, rbind in H.
  destruct (call_handlers env (i_id i) setup (states_or_default i) h) as [[rs h1]|e|] eqn:C; cbn [bind fst snd rret] in H; try discriminate.
  apply call_handlers_ok in C. destruct C as (-> & L & N). injection H as <- <-. split; [reflexivity|].
  exists rs. split; [split; [exact L|exact N]|]. destruct (all_some rs) as [maps|] eqn:A.
  - right. exists maps. split; [apply all_some_some, A|]. eexists. split; [reflexivity|]. split; [apply folded_nodup|]. intro k.
    rewrite (fold_insert_get _ (fun x => x) k maps []), flat_map_id. destruct (last_entry k (concat maps)); reflexivity.
  - left. split; [apply all_some_none, A|reflexivity].
Qed.
Lemma context_ok : forall i maps m, NoDup (keys m) -> (forall k, obj_get k m = last_entry k (concat maps)) ->
  context_for i maps (state_context i m).
Proof.
  intros i maps m ND H k. unfold state_context. rewrite insert_all_json_get, last_entry_nodup, H, fold_insert_get, last_entry_app by exact ND.
  destruct (last_entry k (concat maps)); [reflexivity|]. destruct (last_entry k (flat_map st_params (i_states i))); reflexivity.
Qed.

Lemma request_run : forall r t defaults h a h', make_provider_request w x cx env st r t defaults h = Ok (a, h') ->
  exists evs, h' = h ++ evs /\ asked w x cx env st defaults t r h evs a.
Proof.
  intros r t defaults h a h' H. unfold make_provider_request in H. unfold asked.
  set (r1 := match s_filter st with Some f => f r | None => r end) in *. cbv zeta.
  destruct (create_native_request w x cx (target_url (s_provider st) t) r1 (s_custom st)) as [n|].
  - injection H as <- <-. exists [ESend (with_defaults defaults n)]. split; [reflexivity|]. eexists. repeat split; reflexivity.
  - injection H as <- <-. exists []. split; [rewrite app_nil_r; reflexivity|]. split; reflexivity.
Qed.
Lemma decided_ok : forall id o h r h', lift (verdict id o) h = Ok (r, h') -> h' = h /\ exists ms, o = Ok ms /\ decided id ms r.
Proof.
  intros id o h r h' H. unfold lift, verdict in H. destruct o as [ms|e|]; cbn [bind] in H; try discriminate.
  injection H as <- <-. split; [reflexivity|]. exists ms. split; [reflexivity|]. unfold decided.
  destruct ms; [left; split; reflexivity|right; split; [discriminate|reflexivity]].
Qed.

Ltac asked_step H a h1 evs R :=
  unfold rbind in H;
  match type of H with context [make_provider_request w x cx env st ?r ?t ?d ?h] =>
    destruct (make_provider_request w x cx env st r t d h) as [[a h1]|err|] eqn:R; cbn [bind fst snd] in H; try discriminate
  end; apply request_run in R; destruct R as (evs & -> & R).

Lemma http_run : forall i v q p context defaults h r h', as_v4 i = Some v -> v_payload v = SyncHttp q p ->
  verify_http w x cx env st v q p context defaults h = Ok (r, h') ->
  exists evs, h' = h ++ evs /\ checked w x cx env st defaults context h i evs r.
Proof.
  intros i v q p context defaults h r h' V P H. unfold verify_http in H. asked_step H a h1 evs R.
  assert (Ei : v_id v = i_id i) by (destruct i; injection V as <-; reflexivity). exists evs.
  destruct a as [a|].
  - apply decided_ok in H. destruct H as (-> & ms & M & D). split; [reflexivity|].
    eapply chk_http; [exact V|exact P|exact R| |discriminate]. intros a' E. injection E as <-. exists ms. rewrite <- Ei. split; assumption.
  - injection H as <- <-. split; [reflexivity|]. eapply chk_http; [exact V|exact P|exact R|discriminate|]. intros _. rewrite Ei. reflexivity.
Qed.
Lemma message_run : forall i e context defaults h r h', as_message i = Some e ->
  verify_message w x cx env st i e defaults h = Ok (r, h') ->
  exists evs, h' = h ++ evs /\ checked w x cx env st defaults context h i evs r.
Proof.
  intros i e context defaults h r h' V H. unfold verify_message in H. asked_step H a h1 evs R. exists evs.
  destruct a as [a|].
  - apply decided_ok in H. destruct H as (-> & ms & M & D). split; [reflexivity|].
    eapply chk_message; [exact V|exact R| |discriminate]. intros a' E. injection E as <-. exists ms. split; assumption.
  - injection H as <- <-. split; [reflexivity|]. eapply chk_message; [exact V|exact R|discriminate|]. reflexivity.
Qed.
Lemma sync_run : forall v q ps context defaults h r h', v_payload v = SyncMessage q ps ->
  verify_sync_message w x cx env st v q ps defaults h = Ok (r, h') ->
  exists evs, h' = h ++ evs /\ checked w x cx env st defaults context h (IV4 v) evs r.
Proof.
  intros v q ps context defaults h r h' P H. unfold verify_sync_message in H. asked_step H a h1 evs R. exists evs.
  destruct a as [a|].
  - destruct (N.ltb_spec (resp_status a) 400) as [L|L].
    + apply decided_ok in H. destruct H as (-> & ms & M & D). split; [reflexivity|].
      eapply chk_sync; [exact P|exact R| | |discriminate].
      * intros a' E _. injection E as <-. exists ms. split; assumption.
      * intros a' E L'. injection E as <-. lia.
    + injection H as <- <-. split; [reflexivity|]. eapply chk_sync; [exact P|exact R| | |discriminate].
      * intros a' E L'. injection E as <-. lia.
      * intros a' E _. injection E as <-. reflexivity.
  - injection H as <- <-. split; [reflexivity|]. eapply chk_sync; [exact P|exact R|discriminate|discriminate|reflexivity].
Qed.

Lemma checked_run : forall i context defaults h r h', verify_v3_interaction w x cx env st i context defaults h = Ok (r, h') ->
  exists evs, h' = h ++ evs /\ checked w x cx env st defaults context h i evs r.
Proof.
  intros i context defaults h r h' H. unfold verify_v3_interaction, as_v4_http, as_v4_sync_message, is_message in H.
  destruct i as [i|m|v]; cbn [as_v4 v_payload] in H.
  - unfold rbind, rret in H.
    match type of H with context [verify_http w x cx env st ?v ?q ?p ?c ?d ?h] =>
      destruct (verify_http w x cx env st v q p c d h) as [[r1 h1]|e|] eqn:R; cbn [bind fst snd] in H; try discriminate end.
    injection H as <- <-. eapply http_run in R; [exact R|reflexivity|reflexivity].
  - unfold rbind, rret in H. cbn [bind fst snd as_message] in H.
    destruct (verify_message w x cx env st (IMsg m) m defaults h) as [[r1 h1]|e|] eqn:R; cbn [bind fst snd] in H; try discriminate.
    injection H as <- <-. eapply message_run in R; [exact R|reflexivity].
  - destruct (v_payload v) as [q p|m|q ps] eqn:P.
    + unfold rbind, rret in H.
      destruct (verify_http w x cx env st v q p context defaults h) as [[r1 h1]|e|] eqn:R; cbn [bind fst snd] in H; try discriminate.
      injection H as <- <-. eapply http_run in R; [exact R|reflexivity|exact P].
    + unfold rbind, rret in H. cbn [bind fst snd as_message] in H. rewrite P in H.
      match type of H with context [verify_message w x cx env st ?i ?m ?d ?h] =>
        destruct (verify_message w x cx env st i m d h) as [[r1 h1]|e|] eqn:R; cbn [bind fst snd] in H; try discriminate end.
      injection H as <- <-. eapply message_run in R; [exact R|]. cbn [as_message]. rewrite P. reflexivity.
    + unfold rbind, rret in H. cbn [bind fst snd] in H. eapply sync_run in H; [exact H|exact P].
Qed.

Lemma client_defaults : (if s_builds st then match s_custom st with [] => Some [] | c => default_headers cx c end else None) =
  if s_builds st then default_headers cx (s_custom st) else None.
Proof. destruct (s_builds st); [|reflexivity]. destruct (s_custom st); reflexivity. Qed.
Lemma existsb_none : forall (l : list (option (list (str * json)))), In None l ->
  existsb (fun a => match a with None => true | Some _ => false end) l = true.
Proof. intros l I. apply existsb_exists. exists None. split; [exact I|reflexivity]. Qed.
Lemma existsb_somes : forall (l : list (list (str * json))), existsb (fun a => match a with None => true | Some _ => false end) (map Some l) = false.
Proof. induction l as [|a l IH]; [reflexivity|]. exact IH. Qed.

(** C78: how an interaction is verified. *)
Theorem C78_interaction : forall i h r h', verify_interaction w x cx env st i h = Ok (r, h') ->
  exists evs, h' = h ++ evs /\ interaction_verified w x cx env st i h evs r.
Proof.
  intros i h r h' H. unfold verify_interaction in H. rewrite client_defaults in H.
  destruct (s_builds st) eqn:B; [destruct (default_headers cx (s_custom st)) as [defaults|] eqn:D|].
  2: { injection H as <- <-. exists []. split; [rewrite app_nil_r; reflexivity|]. apply iv_no_client. right. exact D. }
  2: { injection H as <- <-. exists []. split; [rewrite app_nil_r; reflexivity|]. apply iv_no_client. left. exact B. }
  unfold rbind at 1 in H.
  destruct (execute_provider_states env i true h) as [[s h1]|e|] eqn:E; cbn [bind fst snd] in H; try discriminate.
  apply states_run in E. destruct E as (-> & answers & A & [[I ->]|(maps & -> & m & -> & ND & G)]).
  - injection H as <- <-. exists (calls i true). split; [reflexivity|]. eapply iv_setup_failed; eassumption.
  - unfold rbind at 1 in H. 
    destruct (verify_v3_interaction w x cx env st i (state_context i m) defaults (h ++ calls i true)) as [[r1 h1]|e|] eqn:C; cbn [bind fst snd] in H; try discriminate.
    apply checked_run in C. destruct C as (evs & -> & C). pose proof (context_ok i maps m ND G) as K.
    destruct (s_teardown st) eqn:T.
    + unfold rbind in H. destruct (execute_provider_states env i false ((h ++ calls i true) ++ evs)) as [[s h1]|e|] eqn:E; cbn [bind fst snd rret] in H; try discriminate.
      apply states_run in E. destruct E as (-> & answers' & A' & E'). injection H as <- <-.
      exists (calls i true ++ evs ++ calls i false). split; [rewrite !app_assoc; reflexivity|].
      rewrite <- app_assoc in A'.
      match goal with |- interaction_verified _ _ _ _ _ _ _ _ ?r =>
        replace r with (if existsb (fun a => match a with None => true | Some _ => false end) answers' then Some (RError KindTeardown (i_id i)) else r1) end.
      * eapply iv_teardown; eassumption.
      * destruct E' as [[I ->]|(maps' & -> & m' & -> & _)]; [rewrite existsb_none by exact I|rewrite existsb_somes]; reflexivity.
    + injection H as <- <-. exists (calls i true ++ evs). split; [rewrite app_assoc; reflexivity|]. eapply iv_no_teardown; eassumption.
Qed.

Definition is_request (e : event) : bool := match e with ESend _ => true | _ => false end.
Lemma calls_no_request : forall i setup, filter is_request (calls i setup) = [].
Proof. intros i setup. unfold calls. induction (handled_states i) as [|s l IH]; [reflexivity|]. exact IH. Qed.
Lemma asked_one : forall defaults t r h evs a, asked w x cx env st defaults t r h evs a ->
  (evs = [] /\ a = None) \/ exists n, evs = [ESend n] /\ a = option_map (pact_response w x) (provider_answer env h n).
Proof.
  intros defaults t r h evs a A. unfold asked in A. cbv zeta in A.
  destruct (create_native_request w x cx (target_url (s_provider st) t) (match s_filter st with Some f => f r | None => r end) (s_custom st)).
  - destruct A as (n' & _ & E & Ea). right. exists n'. split; assumption.
  - left. exact A.
Qed.
Lemma checked_one : forall defaults context h i evs r, checked w x cx env st defaults context h i evs r ->
  (evs = [] /\ r <> None) \/ exists n, evs = [ESend n].
Proof.
  intros defaults context h i evs r C.
  destruct C as [i v q p evs answer r V P A _ N|i e evs answer r V A _ N|v q ps evs answer r P A _ _ N];
    (apply asked_one in A; destruct A as [[-> ->]|(n & -> & _)]; [left; split; [reflexivity|rewrite (N eq_refl); discriminate]|right; exists n; reflexivity]).
Qed.
(** C78: at most one request goes to the provider, and none when an interaction has not been set up. *)
Theorem C78_requests : forall i h r h', verify_interaction w x cx env st i h = Ok (r, h') ->
  exists evs, h' = h ++ evs /\ (length (filter is_request evs) <= 1)%nat /\
  (r = Some (RError KindSetup (i_id i)) -> forall answers, handler_answers env i true h answers -> In None answers -> filter is_request evs = []) /\
  (r = None -> exists n, filter is_request evs = [ESend n]).
Proof.
  intros i h r h' H. apply C78_interaction in H. destruct H as (evs & -> & V). exists evs. split; [reflexivity|].
  destruct V as [N|defaults answers B D A I|defaults answers context evs r B D A K C T|defaults answers context evs r answers' B D A K C T A'].
  - split; [cbn [filter length]; lia|]. split; [reflexivity|discriminate].
  - rewrite calls_no_request. split; [cbn [length]; lia|]. split; [reflexivity|discriminate].
  - rewrite filter_app, calls_no_request. cbn [app]. apply checked_one in C. split; [|split].
    + destruct C as [[-> _]|[n ->]]; cbn [filter is_request length]; lia.
    + intros _ answers2 A2 I2. exfalso. destruct A as [L A]. destruct A2 as [L2 A2]. apply In_nth_error in I2. destruct I2 as [k I2].
      assert (Lk : (k < length (handled_states i))%nat) by (rewrite <- L2; apply nth_error_Some; rewrite I2; discriminate).
      destruct (nth_error (handled_states i) k) as [s|] eqn:S; [|apply nth_error_None in S; lia].
      rewrite (A2 k s S) in I2. specialize (A k s S). injection I2 as I2. rewrite I2 in A. rewrite nth_error_map in A.
      destruct (nth_error answers k); discriminate.
    + intros ->. destruct C as [[_ N]|[n ->]]; [congruence|]. exists n. reflexivity.
  - rewrite !filter_app, !calls_no_request, app_nil_r. cbn [app]. apply checked_one in C. split; [|split].
    + destruct C as [[-> _]|[n ->]]; cbn [filter is_request length]; lia.
    + intros _ answers2 A2 I2. exfalso. destruct A as [L A]. destruct A2 as [L2 A2]. apply In_nth_error in I2. destruct I2 as [k I2].
      assert (Lk : (k < length (handled_states i))%nat) by (rewrite <- L2; apply nth_error_Some; rewrite I2; discriminate).
      destruct (nth_error (handled_states i) k) as [s|] eqn:S; [|apply nth_error_None in S; lia].
      rewrite (A2 k s S) in I2. specialize (A k s S). injection I2 as I2. rewrite I2 in A. rewrite nth_error_map in A.
      destruct (nth_error answers k); discriminate.
    + destruct (existsb _ answers'); [discriminate|]. intros ->. destruct C as [[_ N]|[n ->]]; [congruence|]. exists n. reflexivity.
Qed.

(** C78: verifying an interaction always comes to a result if comparing answers does. *)
Theorem C78_no_panic : forall i h,
  (forall e a, exists ms, match_response w x e a = Ok ms) -> (forall e a, exists ms, match_message w x e a = Ok ms) ->
  exists r h', verify_interaction w x cx env st i h = Ok (r, h').
Proof.
  intros i h M1 M2.
  assert (M3 : forall es as_, exists ms, match_each w x es as_ = Ok ms).
  { induction es as [|e es IH]; intros [|a as_]; try (eexists; reflexivity). destruct (M2 e a) as [m E]. destruct (IH as_) as [ms E'].
    exists (m ++ ms). cbn [match_each]. rewrite E. cbn [bind]. rewrite E'. reflexivity. }
  assert (Q : forall r t d h, exists a h', make_provider_request w x cx env st r t d h = Ok (a, h')).
  { intros r t d h0. unfold make_provider_request. cbv zeta.
    destruct (create_native_request w x cx (target_url (s_provider st) t) (match s_filter st with Some f => f r | None => r end) (s_custom st));
    eexists; eexists; reflexivity. }
  assert (P : forall setup h, exists a h', execute_provider_states env i setup h = Ok (a, h')).
  { intros setup h0. unfold execute_provider_states, rbind. destruct (call_handlers_total (i_id i) setup (states_or_default i) h0) as [[a h'] ->].
    eexists. eexists. reflexivity. }
  assert (H1 : forall v q p c d h, exists r h', verify_http w x cx env st v q p c d h = Ok (r, h')).
  { intros v q p c d h0. unfold verify_http, rbind.
    match goal with |- context [make_provider_request w x cx env st ?a ?b ?c ?d] => destruct (Q a b c d) as (a' & h' & ->) end. cbn [bind fst snd].
    destruct a' as [a'|]; [|eexists; eexists; reflexivity]. destruct (M1 p a') as [ms E]. unfold lift, verdict. rewrite E. eexists. eexists. reflexivity. }
  assert (H2 : forall i e d h, exists r h', verify_message w x cx env st i e d h = Ok (r, h')).
  { intros i0 e d h0. unfold verify_message, rbind.
    match goal with |- context [make_provider_request w x cx env st ?a ?b ?c ?d] => destruct (Q a b c d) as (a' & h' & ->) end. cbn [bind fst snd].
    destruct a' as [a'|]; [|eexists; eexists; reflexivity].
    destruct (M2 (m_body e) (mkMsg (resp_body a') (extract_metadata w cx a') [])) as [ms E]. unfold lift, verdict. rewrite E. eexists. eexists. reflexivity. }
  assert (H3 : forall v q ps d h, exists r h', verify_sync_message w x cx env st v q ps d h = Ok (r, h')).
  { intros v q ps d h0. unfold verify_sync_message, rbind.
    match goal with |- context [make_provider_request w x cx env st ?a ?b ?c ?d] => destruct (Q a b c d) as (a' & h' & ->) end. cbn [bind fst snd].
    destruct a' as [a'|]; [|eexists; eexists; reflexivity].
    destruct (resp_status a' <? 400); [|eexists; eexists; reflexivity]. unfold match_sync_responses.
    match goal with |- context [Nat.eqb ?a ?b] => destruct (Nat.eqb a b) end; [|eexists; eexists; reflexivity].
    destruct (M3 ps [mkMsg (resp_body a') (extract_metadata w cx a') []]) as [ms E]. unfold lift, verdict. rewrite E. eexists. eexists. reflexivity. }
  assert (H4 : forall c d h, exists r h', verify_v3_interaction w x cx env st i c d h = Ok (r, h')).
  { intros c d h0. unfold verify_v3_interaction, as_v4_http, as_v4_sync_message, is_message, rbind, rret.
    destruct i as [r0|m0|v0]; cbn [as_v4 v_payload].
    - match goal with |- context [verify_http w x cx env st ?a ?b ?c ?d ?e ?f] => destruct (H1 a b c d e f) as (r & h' & ->) end. eexists; eexists; reflexivity.
    - cbn [bind fst snd as_message]. match goal with |- context [verify_message w x cx env st ?a ?b ?c ?d] => destruct (H2 a b c d) as (r & h' & ->) end. eexists; eexists; reflexivity.
    - destruct (v_payload v0) as [q p|m|q ps] eqn:Ep.
      + match goal with |- context [verify_http w x cx env st ?a ?b ?c ?d ?e ?f] => destruct (H1 a b c d e f) as (r & h' & ->) end. eexists; eexists; reflexivity.
      + cbn [bind fst snd as_message]. rewrite Ep.
        match goal with |- context [verify_message w x cx env st ?a ?b ?c ?d] => destruct (H2 a b c d) as (r & h' & ->) end. eexists; eexists; reflexivity.
      + cbn [bind fst snd]. apply H3. }
  unfold verify_interaction. destruct (if s_builds st then _ else _) as [defaults|]; [|eexists; eexists; reflexivity].
  unfold rbind at 1. destruct (P true h) as (a & h1 & ->). cbn [bind fst snd]. destruct a as [m|]; [|eexists; eexists; reflexivity].
  unfold rbind at 1. destruct (H4 (state_context i m) defaults h1) as (r & h2 & ->). cbn [bind fst snd].
  destruct (s_teardown st); [|eexists; eexists; reflexivity]. unfold rbind. destruct (P false h2) as (a & h3 & ->). eexists; eexists; reflexivity.
Qed.

(** ** Pacts *)
Lemma interactions_run : forall f who pending l h rs h', verify_interactions w x cx env st f who pending l h = Ok (rs, h') ->
  exists kept evs, h' = h ++ evs /\ picked (selected w f) l kept /\
    verified_in_turn w x cx env st h kept evs (map ir_result rs) /\ Forall2 (reported who pending) kept rs.
Proof.
  intros f who pending. induction l as [|i l IH]; intros h rs h' H; cbn [verify_interactions] in H.
  - injection H as <- <-. exists [], []. split; [rewrite app_nil_r; reflexivity|]. split; [apply picked_nil|]. split; [apply vt_nil|constructor].
  - unfold rbind at 1, lift in H. destruct (filter_interaction w f i) as [b|e|] eqn:F; cbn [bind fst snd] in H; try discriminate.
    apply C77_filter in F. destruct b.
    + unfold rbind at 1 in H. destruct (verify_interaction w x cx env st i h) as [[r h1]|e|] eqn:V; cbn [bind fst snd] in H; try discriminate.
      apply C78_interaction in V. destruct V as (evs & -> & V). unfold rbind in H.
      destruct (verify_interactions w x cx env st f who pending l (h ++ evs)) as [[rs1 h2]|e|] eqn:L; cbn [bind fst snd rret] in H; try discriminate.
      destruct (IH _ _ _ L) as (kept & evs' & -> & P & T & R). injection H as <- <-.
      exists (i :: kept), (evs ++ evs'). split; [rewrite app_assoc; reflexivity|]. split; [apply picked_yes; [apply F; reflexivity|exact P]|].
      split; [cbn [map ir_result]; apply vt_cons; assumption|]. constructor; [repeat split; reflexivity|exact R].
    + destruct (IH _ _ _ H) as (kept & evs' & -> & P & T & R). exists kept, evs'. split; [reflexivity|].
      split; [apply picked_no; [intro X; apply F in X; discriminate|exact P]|]. split; assumption.
Qed.

Definition has_version (publish : option (option str)) : Prop := match publish with Some None => False | _ => True end.
Definition publishing (publish : option (option str)) : bool := match publish with Some _ => true | None => false end.

Lemma failures_false : forall p npe rs, failures false rs = counted npe (Loaded p, rs).
Proof.
  intros p npe rs. unfold failures, counted. cbn [fst snd]. induction rs as [|r rs IH]; [reflexivity|]. cbn [flat_map]. rewrite IH. f_equal.
  destruct (ir_result r); [|reflexivity]. destruct (ir_pending r); reflexivity.
Qed.
Lemma failures_true : forall p rs, failures true rs = not_counted (Loaded p, rs).
Proof.
  intros p rs. unfold failures, not_counted. cbn [fst snd]. induction rs as [|r rs IH]; [reflexivity|]. cbn [flat_map]. rewrite IH. f_equal.
  destruct (ir_result r); [|reflexivity]. destruct (ir_pending r); reflexivity.
Qed.
Lemma notices_keep : forall p stage e, let e' := process_notices p stage e in
  e_errors e' = e_errors e /\ e_pending e' = e_pending e /\ e_results e' = e_results e.
Proof. intros p stage e. unfold process_notices. destruct (lp_pending p); repeat split; reflexivity. Qed.

Lemma pact_run : forall f publish p e h e' h', verify_pact w x cx env st f publish p e h = Ok (e', h') ->
  exists evs rs, h' = h ++ evs /\ pact_verified w x cx env st f (publishing publish) p h evs rs /\
    e_errors e' = e_errors e ++ failures false rs /\ e_pending e' = e_pending e ++ failures true rs /\ e_results e' = e_results e ++ rs.
Proof.
  intros f publish p e h e' h' H. unfold verify_pact in H.
  set (e1 := process_notices p before_verification e) in *.
  assert (K : e_errors e1 = e_errors e /\ e_pending e1 = e_pending e /\ e_results e1 = e_results e) by apply notices_keep.
  clearbody e1. destruct K as (K1 & K2 & K3).
  destruct (lp_interactions p) as [|i0 l0] eqn:L.
  - injection H as <- <-. exists [], []. split; [rewrite app_nil_r; reflexivity|]. split.
    + exists [], []. rewrite L. split; [apply picked_nil|]. split; [apply vt_nil|]. split; [constructor|]. cbn [nonempty]. rewrite andb_false_r. reflexivity.
    + cbn [failures flat_map]. rewrite !app_nil_r. auto.
  - rewrite <- L in H. unfold rbind at 1 in H.
    destruct (verify_interactions w x cx env st f (lp_who p) (match lp_pending p with Some b => b | None => false end) (lp_interactions p) h)
      as [[rs h1]|err|] eqn:V; cbn [bind fst snd] in H; try discriminate.
    apply interactions_run in V. destruct V as (kept & evs & -> & P & T & R).
    set (e2 := mkExec (e_errors e1 ++ failures false rs) (e_pending e1 ++ failures true rs) (e_results e1 ++ rs) (e_notices e1) (e_shown e1)) in *.
    assert (Fin : forall stage e3, e3 = process_notices p stage e2 ->
      e_errors e3 = e_errors e ++ failures false rs /\ e_pending e3 = e_pending e ++ failures true rs /\ e_results e3 = e_results e ++ rs).
    { intros stage e3 ->. destruct (notices_keep p stage e2) as (A & B & C). rewrite A, B, C. subst e2. cbn [e_errors e_pending e_results]. rewrite K1, K2, K3. auto. }
    destruct publish as [version|].
    + unfold rbind in H. unfold publish_result in H. destruct (lp_source p) as [url|] eqn:So; [destruct version as [v|]|]; cbn [bind fst snd rret] in H; try discriminate.
      * injection H as <- <-. exists (evs ++ [EPublish (SBroker url) rs]), rs. split; [rewrite app_assoc; reflexivity|].
        split; [|eapply Fin; reflexivity]. exists kept, evs. split; [exact P|]. split; [exact T|]. split; [exact R|].
        rewrite L, So. cbn [publishing nonempty is_broker andb]. reflexivity.
      * injection H as <- <-. exists evs, rs. split; [reflexivity|].
        split; [|eapply Fin; reflexivity]. exists kept, evs. split; [exact P|]. split; [exact T|]. split; [exact R|].
        rewrite So. cbn [is_broker]. rewrite andb_false_r, app_nil_r. reflexivity.
    + injection H as <- <-. exists evs, rs. split; [reflexivity|].
      split; [|eapply Fin; reflexivity]. exists kept, evs. split; [exact P|]. split; [exact T|]. split; [exact R|].
      cbn [publishing andb]. rewrite app_nil_r. reflexivity.
Qed.

Lemma pacts_run : forall f publish npe l e h e' h', verify_pacts w x cx env st f publish npe l e h = Ok (e', h') ->
  exists evs all, h' = h ++ evs /\ pacts_verified w x cx env st f (publishing publish) h l evs all /\
    e_errors e' = e_errors e ++ flat_map (counted npe) all /\ e_pending e' = e_pending e ++ flat_map not_counted all /\
    e_results e' = e_results e ++ flat_map snd all.
Proof.
  intros f publish npe. induction l as [|[p|nf] l IH]; intros e h e' h' H; cbn [verify_pacts] in H.
  - injection H as <- <-. exists [], []. cbn [flat_map]. rewrite !app_nil_r. repeat split. apply pv_nil.
  - unfold rbind in H. destruct (verify_pact w x cx env st f publish p e h) as [[e1 h1]|err|] eqn:V; cbn [bind fst snd] in H; try discriminate.
    apply pact_run in V. destruct V as (evs & rs & -> & V & E1 & E2 & E3). apply IH in H. destruct H as (evs' & all & -> & W & G1 & G2 & G3).
    exists (evs ++ evs'), ((Loaded p, rs) :: all). split; [rewrite app_assoc; reflexivity|]. split; [apply pv_pact; assumption|].
    rewrite G1, G2, G3, E1, E2, E3. cbn [flat_map snd]. rewrite (failures_false p npe), (failures_true p), <- !app_assoc. repeat split; reflexivity.
  - apply IH in H. destruct H as (evs' & all & -> & W & G1 & G2 & G3). exists evs', ((LoadError nf, []) :: all). split; [reflexivity|].
    split; [apply pv_failed; exact W|]. rewrite G1, G2, G3. unfold load_failed. cbn [flat_map snd counted fst not_counted].
    destruct (nf && negb npe); cbn [e_errors e_pending e_results app]; rewrite <- ?app_assoc; repeat split; reflexivity.
Qed.
End Verified.

(** C79: the pacts of the sources, in order, for the wanted consumers; a pact that could not be read is kept. *)
Lemma filter_picked : forall A (P : A -> Prop) (p : A -> bool) l, (forall a, p a = true <-> P a) -> picked P l (filter p l).
Proof.
  intros A P p l H. induction l as [|a l IH]; [apply picked_nil|]. cbn [filter]. destruct (p a) eqn:E.
  - apply picked_yes; [apply H; exact E|exact IH].
  - apply picked_no; [intro X; apply H in X; congruence|exact IH].
Qed.
Theorem C79_pacts_considered : forall sources consumers,
  picked (consumer_wanted consumers) (concat sources) (fetch_pacts sources consumers).
Proof.
  intros sources consumers. unfold fetch_pacts. apply filter_picked. intro r. unfold filter_consumers, consumer_wanted.
  destruct consumers as [|c cs]; [cbn [nonempty negb orb]; split; [left; reflexivity|reflexivity]|].
  cbn [nonempty negb orb]. destruct r as [p|nf].
  - rewrite existsb_exists. split.
    + intros (y & I & E). right. apply str_eqb_eq in E. rewrite E. exact I.
    + intros [X|I]; [discriminate|]. exists (consumer (lp_who p)). split; [exact I|apply str_eqb_refl].
  - split; [intros _; right; exact Logic.I|reflexivity].
Qed.

(** C79: what a run of the verifier does and reports; it succeeds exactly when nothing counted failed. *)
Theorem C79_run : forall w x cx env st f consumers publish npe sources h ok e h',
  verify_provider w x cx env st f consumers publish npe sources h = Ok ((ok, e), h') ->
  exists evs all, h' = h ++ evs /\
    pacts_verified w x cx env st f (publishing publish) h (fetch_pacts sources consumers) evs all /\
    e_errors e = flat_map (counted npe) all /\ e_pending e = flat_map not_counted all /\ e_results e = flat_map snd all /\
    (ok = true <-> (forall nf rs, In (LoadError nf, rs) all -> nf = true /\ npe = false) /\
                   (forall r, In r (e_results e) -> ir_result r = None \/ ir_pending r = true)).
Proof.
  intros w x cx env st f consumers publish npe sources h ok e h' H. unfold verify_provider, rbind in H.
  destruct (verify_pacts w x cx env st f publish npe (fetch_pacts sources consumers) execution_new h) as [[e1 h1]|err|] eqn:V; cbn [bind fst snd rret] in H; try discriminate.
  apply pacts_run in V. destruct V as (evs & all & -> & W & G1 & G2 & G3). injection H as <- <- <-.
  exists evs, all. cbn [e_errors e_pending e_results execution_new app] in *. repeat (split; [first [reflexivity|assumption]|]).
  assert (LE : forall nf rs, In (LoadError nf, rs) all -> rs = []).
  { clear -W. induction W as [h|h p l evs evs' rs all P W IH|h nf l evs all W IH]; intros nf0 rs0 I; [destruct I| |].
    - destruct I as [E|I]; [discriminate|]. exact (IH nf0 rs0 I).
    - destruct I as [E|I]; [injection E as <- <-; reflexivity|]. exact (IH nf0 rs0 I). }
  assert (NE : negb (nonempty (e_errors e1)) = true <-> e_errors e1 = []) by (destruct (e_errors e1); split; intro X; (reflexivity || discriminate)).
  rewrite NE, G1, G3. clear -LE. induction all as [|[l rs] all IH].
  - split; [intros _; split; [intros nf rs []|intros r []]|reflexivity].
  - assert (LE' : forall nf rs, In (LoadError nf, rs) all -> rs = []) by (intros nf rs0 I; apply (LE nf); right; exact I). specialize (IH LE').
    cbn [flat_map snd]. split.
    + intro E. apply app_eq_nil in E. destruct E as [E1 E2]. apply IH in E2. destruct E2 as [A B]. split.
      * intros nf rs0 [X|I]; [|exact (A nf rs0 I)]. injection X as -> ->. unfold counted in E1. cbn [fst] in E1.
        destruct nf, npe; cbn [andb negb] in E1; try discriminate. split; reflexivity.
      * intros r I. apply in_app_iff in I. destruct I as [I|I]; [|exact (B r I)].
        destruct l as [p|nf]; [|rewrite (LE nf rs (or_introl eq_refl)) in I; destruct I].
        unfold counted in E1. cbn [fst snd] in E1. destruct (ir_result r) as [m|] eqn:Er; [|left; reflexivity]. right.
        destruct (ir_pending r) eqn:Ep; [reflexivity|]. exfalso.
        assert (X : In (ir_description r, m) []).
        { rewrite <- E1. apply in_flat_map. exists r. split; [exact I|]. rewrite Er, Ep. left. reflexivity. }
        destruct X.
    + intros [A B]. assert (E2 : flat_map (counted npe) all = []).
      { apply IH. split; [intros nf rs0 I; apply (A nf rs0); right; exact I|]. intros r I. apply B, in_app_iff. right. exact I. }
      rewrite E2, app_nil_r. destruct l as [p|nf]; unfold counted; cbn [fst snd].
      * assert (B' : forall r, In r rs -> ir_result r = None \/ ir_pending r = true) by (intros r I; apply B, in_app_iff; left; exact I).
        clear -B'. induction rs as [|r rs IH]; [reflexivity|]. cbn [flat_map]. rewrite IH by (intros r0 I; apply B'; right; exact I).
        rewrite app_nil_r. destruct (B' r (or_introl eq_refl)) as [-> | ->]; [reflexivity|]. destruct (ir_result r); reflexivity.
      * destruct (A nf rs (or_introl eq_refl)) as [-> ->]. reflexivity.
Qed.
