(** C113: pacts described with the consumer DSL, and the messages taken out of them. *)
From Coq Require Import Ascii String List Arith NArith ZArith Lia Bool Permutation Sorted.
From Verif Require Import Base PathExp Json Text MatchingRules Matchers Headers Query ContentType Http Pattern
  Expr Generators Builder SpecBuilder Merge PactFile OldFile MessageBuilder SpecMessageBuilder PropMessageBuilder.
Import ListNotations.
Open Scope N_scope.
Local Opaque show_N.

Lemma ok_inj' : forall A E (a b : A), @Ok A E a = Ok b -> b = a.
Proof. intros A E a b H. injection H as ->. reflexivity. Qed.
Section Pacts.
Variable w : world.
Variable x : externals.

(** An HTTP interaction is as it is described: the request and the response are those of their own calls. *)
Theorem C113_http_described : forall d a q p, let i := build_http_v4 w x d a q p in
  described d a i /\ x_transport (f_extra i) = last_of (transports_said a) /\
  exists gq gp, f_payload i = FHttp (build_request w x q, gq) (build_response w x p, gp).
Proof.
  intros d a q p. cbv zeta. destruct (about_after a) as (H1 & H2 & H3 & H4 & H5 & H6 & H7). cbv zeta in *.
  unfold build_http_v4, described. cbn [f_id f_desc f_key f_states f_extra about_extra x_pending x_comments x_transport f_payload].
  rewrite H1, H2, H3, H4, H5, H7. repeat (apply conj); try reflexivity. eexists _, _. reflexivity.
Qed.
Theorem C113_old_http_described : forall d a q p, let i := build_http w x d a q p in
  h_id i = None /\ h_desc i = d /\ h_states i = states_said a /\
  fst (h_request i) = build_request w x q /\ fst (h_response i) = build_response w x p.
Proof.
  intros d a q p. cbv zeta. destruct (about_after a) as (H1 & _). cbv zeta in *. unfold build_http. cbn. rewrite H1. repeat (apply conj); reflexivity.
Qed.

(** ** Adding interactions *)
Definition kind_kept (p p' : any_pact) : Prop := is_v4 p' = is_v4 p.
Lemma add_v4 : forall p i, add_interaction (AV4 p) i = Ok (AV4 (mkVF (vf_who p) (vf_ints p ++ [as_v4 i]) (vf_meta p) (vf_plugins p))).
Proof. intros p [i|i|i]; reflexivity. Qed.
(** A V4 pact takes every interaction: afterwards it has those it had and those described, in the order of the calls. *)
Theorem C113_v4_pact : forall h p p', pact_steps w x (AV4 p) h = Ok p' ->
  exists l, p' = AV4 (mkVF (vf_who p) (vf_ints p ++ l) (vf_meta p) (vf_plugins p)) /\
    Forall2 (fun c i => exists y, built_by w x true c = Ok y /\ i = as_v4 y) h l.
Proof.
  intro h. induction h as [|c h IH]; intros p p' H; cbn [pact_steps] in H.
  - injection H as <-. exists []. rewrite app_nil_r. destruct p. split; [reflexivity | constructor].
  - unfold pact_step in H. cbn [is_v4] in H. destruct (built_by w x true c) as [y| |] eqn:B; try discriminate. cbn [bind] in H. rewrite add_v4 in H. cbn [bind] in H.
    apply IH in H as (l & -> & F). cbn [vf_who vf_ints vf_meta vf_plugins]. exists (as_v4 y :: l). rewrite <- app_assoc. split; [reflexivity|].
    constructor; [exists y; split; [exact B | reflexivity] | exact F].
Qed.
(** In a V4 pact an HTTP interaction keeps everything said about it: key, states, comments, whether it is pending, the transport. *)
Theorem C113_v4_http : forall d a q r p p', pact_step w x (AV4 p) (BInteraction d a q r) = Ok p' ->
  exists i gq gp, p' = AV4 (mkVF (vf_who p) (vf_ints p ++ [i]) (vf_meta p) (vf_plugins p)) /\ described d a i /\ x_transport (f_extra i) = last_of (transports_said a) /\ f_payload i = FHttp (build_request w x q, gq) (build_response w x r, gp).
Proof.
  intros d a q r p p' H. unfold pact_step in H. cbn [is_v4 built_by bind] in H. rewrite add_v4 in H. apply ok_inj' in H.
  destruct (C113_http_described d a q r) as (D & X & gq & gp & P). cbv zeta in *.
  exists (build_http_v4 w x d a q r), gq, gp. split; [exact H | split; [exact D | split; [exact X | exact P]]].
Qed.
(** A pact of HTTP interactions takes HTTP interactions, a pact of messages takes asynchronous messages. *)
Definition as_http (i : any_interaction) : list http_interaction := match i with XHttp i => [i] | XMsg _ => [] | XV4 i => downgrade_http i end.
Definition as_message (i : any_interaction) : list old_message := match i with XHttp _ => [] | XMsg m => [m] | XV4 i => downgrade_message i end.
Lemma wants_http : forall p i, wants (AHttp p) i <-> exists j, as_http i = [j].
Proof.
  intros p [i|m|i]; cbn [wants as_http].
  - split; [intros _; exists i; reflexivity | intros _; exact I].
  - split; [intros [] | intros [? Z]; discriminate].
  - unfold downgrade_http. destruct (f_payload i) as [q r|m|q r]; split; intros H; try (destruct H as (? & H); try destruct H as (? & H); discriminate).
    + eexists. reflexivity.
    + exists q, r. reflexivity.
Qed.
Lemma wants_message : forall p i, wants (AMsg p) i <-> exists j, as_message i = [j].
Proof.
  intros p [i|m|i]; cbn [wants as_message].
  - split; [intros [] | intros [? Z]; discriminate].
  - split; [intros _; exists m; reflexivity | intros _; exact I].
  - unfold downgrade_message. destruct (f_payload i) as [q r|m|q r]; split; intros H; try (destruct H as (? & H); try destruct H as (? & H); discriminate).
    + eexists. reflexivity.
    + exists m. reflexivity.
Qed.
Theorem C113_http_pact : forall h p p', pact_steps w x (AHttp p) h = Ok p' ->
  exists l, p' = AHttp (mkHP (hp_who p) (hp_ints p ++ l) (hp_meta p) (hp_version p)) /\
    Forall2 (fun c i => exists y, built_by w x false c = Ok y /\ match y with XHttp j => i = j | XMsg _ => False | XV4 j => downgrade_http j = [i] end) h l.
Proof.
  intro h. induction h as [|c h IH]; intros p p' H; cbn [pact_steps] in H.
  - injection H as <-. exists []. rewrite app_nil_r. destruct p. split; [reflexivity | constructor].
  - unfold pact_step in H. cbn [is_v4] in H. destruct (built_by w x false c) as [y| |] eqn:B; try discriminate. cbn [bind add_interaction] in H.
    fold (as_http y) in H. destruct (as_http y) as [|j l0] eqn:A; [discriminate|]. cbn [bind] in H.
    assert (l0 = []) as -> by (destruct y; cbn [as_http] in A; [congruence | discriminate | unfold downgrade_http in A; destruct (f_payload i); congruence]).
    apply IH in H as (l & -> & F). cbn [hp_who hp_ints hp_meta hp_version]. exists (j :: l). rewrite <- app_assoc. split; [reflexivity|].
    constructor; [|exact F]. exists y. split; [exact B|]. destruct y; cbn [as_http] in A; [congruence | discriminate | exact A].
Qed.
Theorem C113_message_pact : forall h p p', pact_steps w x (AMsg p) h = Ok p' ->
  exists l, p' = AMsg (mkMF (mf_who p) (mf_msgs p ++ l) (mf_meta p) (mf_version p)) /\
    Forall2 (fun c i => exists y, built_by w x false c = Ok y /\ match y with XHttp _ => False | XMsg m => i = m | XV4 j => downgrade_message j = [i] end) h l.
Proof.
  intro h. induction h as [|c h IH]; intros p p' H; cbn [pact_steps] in H.
  - injection H as <-. exists []. rewrite app_nil_r. destruct p. split; [reflexivity | constructor].
  - unfold pact_step in H. cbn [is_v4] in H. destruct (built_by w x false c) as [y| |] eqn:B; try discriminate. cbn [bind add_interaction] in H.
    fold (as_message y) in H. destruct (as_message y) as [|j l0] eqn:A; [discriminate|]. cbn [bind] in H.
    assert (l0 = []) as -> by (destruct y; cbn [as_message] in A; [discriminate | congruence | unfold downgrade_message in A; destruct (f_payload i); congruence]).
    apply IH in H as (l & -> & F). cbn [mf_who mf_msgs mf_meta mf_version]. exists (j :: l). rewrite <- app_assoc. split; [reflexivity|].
    constructor; [|exact F]. exists y. split; [exact B|]. destruct y; cbn [as_message] in A; [discriminate | congruence | exact A].
Qed.
Lemma built_not_err : forall b c, built_by w x b c <> Err tt.
Proof.
  intros b c. destruct c as [d a q p|d h|d h|i]; cbn [built_by]; try discriminate.
  - destruct (build_async w x d h) as [i|e|] eqn:E; cbn [bind]; try discriminate. unfold build_async in E.
    assert (forall s, async_steps w x s h <> Err tt) as N.
    { clear. induction h as [|c h IH]; intro s; cbn [async_steps]; [discriminate|]. destruct c as [c|k v|j|p|b ct]; cbn [async_step bind]; try apply IH.
      unfold contents_from_async. destruct (obj_get _ _); [destruct (parse_mime x _)|]; cbn [bind]; try apply IH; discriminate. }
    specialize (N (about_start, contents_start)). destruct e. destruct (async_steps w x _ h); cbn [bind] in *; congruence.
  - destruct (build_sync w x d h) as [i|e|] eqn:E; cbn [bind]; try discriminate. unfold build_sync in E.
    assert (forall s, sync_steps w x s h <> Err tt) as N.
    { clear. induction h as [|c h IH]; intro s; cbn [sync_steps]; [discriminate|]. destruct c as [c|k v|j|p|b ct|m g|p|b ct|m g]; cbn [sync_step bind]; try apply IH.
      unfold contents_from_sync. destruct (obj_get (S_ "pact:content-type") _); [destruct (parse_mime x _)|]; cbn [bind]; try apply IH; discriminate. }
    specialize (N (about_start, (contents_start, []))). destruct e. destruct (sync_steps w x _ h); cbn [bind] in *; congruence.
Qed.
Lemma step_ok : forall p c, (exists y, built_by w x (is_v4 p) c = Ok y /\ wants p y) <-> exists p', pact_step w x p c = Ok p'.
Proof.
  intros p c. unfold pact_step. split.
  - intros (y & -> & W). cbn [bind]. destruct p as [p|p|p].
    + apply wants_http in W as (j & W). cbn [add_interaction]. fold (as_http y). rewrite W. eexists. reflexivity.
    + apply wants_message in W as (j & W). cbn [add_interaction]. fold (as_message y). rewrite W. eexists. reflexivity.
    + rewrite add_v4. eexists. reflexivity.
  - intros (p' & H). destruct (built_by w x (is_v4 p) c) as [y| |]; try discriminate. exists y. split; [reflexivity|]. cbn [bind] in H. destruct p as [p|p|p]; [| | exact I].
    + apply wants_http. cbn [add_interaction] in H. fold (as_http y) in H. destruct y; cbn [as_http] in *; [eexists; reflexivity | discriminate|].
      unfold downgrade_http in *. destruct (f_payload i); try discriminate. eexists. reflexivity.
    + apply wants_message. cbn [add_interaction] in H. fold (as_message y) in H. destruct y; cbn [as_message] in *; [discriminate | eexists; reflexivity|].
      unfold downgrade_message in *. destruct (f_payload i); try discriminate. eexists. reflexivity.
Qed.
Lemma wants_kind : forall p p' c, pact_step w x p c = Ok p' -> is_v4 p' = is_v4 p /\ forall i, wants p' i <-> wants p i.
Proof.
  intros p p' c H. unfold pact_step in H. destruct (built_by w x (is_v4 p) c) as [y| |]; try discriminate. cbn [bind] in H. destruct p as [p|p|p].
  - cbn [add_interaction] in H. destruct (match y with XHttp i => [i] | XMsg _ => [] | XV4 i => downgrade_http i end); [discriminate|]. injection H as <-. split; [reflexivity | reflexivity].
  - cbn [add_interaction] in H. destruct (match y with XHttp _ => [] | XMsg m => [m] | XV4 i => downgrade_message i end); [discriminate|]. injection H as <-. split; [reflexivity | reflexivity].
  - rewrite add_v4 in H. injection H as <-. split; [reflexivity | reflexivity].
Qed.
(** The description panics exactly if some call describes no interaction or one the pact does not take. *)
Theorem C113_succeeds_iff : forall h p, (exists p', pact_steps w x p h = Ok p') <->
  Forall (fun c => exists y, built_by w x (is_v4 p) c = Ok y /\ wants p y) h.
Proof.
  intro h. induction h as [|c h IH]; intro p; cbn [pact_steps]; [split; [constructor | intros _; exists p; reflexivity]|]. split.
  - intros (p' & H). destruct (pact_step w x p c) as [p1| |] eqn:E; try discriminate. cbn [bind] in H. destruct (wants_kind _ _ _ E) as [K1 K2].
    constructor; [apply step_ok; exists p1; exact E|].
    assert (exists p', pact_steps w x p1 h = Ok p') as Z by (exists p'; exact H). apply IH in Z. rewrite K1 in Z.
    eapply Forall_impl; [|exact Z]. intros c0 (y & Y1 & Y2). exists y. split; [exact Y1 | apply K2, Y2].
  - intro F. inversion F as [|? ? F1 F2]; subst. apply step_ok in F1 as (p1 & E). rewrite E. cbn [bind]. destruct (wants_kind _ _ _ E) as [K1 K2]. apply IH. rewrite K1.
    eapply Forall_impl; [|exact F2]. intros c0 (y & Y1 & Y2). exists y. split; [exact Y1 | apply K2, Y2].
Qed.
Theorem C113_or_panics : forall h p, (exists p', pact_steps w x p h = Ok p') \/ pact_steps w x p h = Panic.
Proof.
  intro h. induction h as [|c h IH]; intro p; cbn [pact_steps]; [left; exists p; reflexivity|].
  assert (pact_step w x p c <> Err tt) as N.
  { unfold pact_step. pose proof (built_not_err (is_v4 p) c) as N. destruct (built_by w x (is_v4 p) c) as [y|[]|]; cbn [bind]; [|congruence | discriminate]. destruct (add_interaction p y); discriminate. }
  destruct (pact_step w x p c) as [p1|[]|]; cbn [bind]; [apply IH | congruence | right; reflexivity].
Qed.

(** ** Iterators *)
Lemma take_length : forall M n (l : list M), length (iter_take n l) = n.
Proof. intros M n. induction n as [|n IH]; intro l; [reflexivity|]. cbn [iter_take]. destruct (iter_next l). cbn [length]. rewrite IH. reflexivity. Qed.
Lemma take_nth : forall M n (l : list M) k, (k < n)%nat -> nth_error (iter_take n l) k = Some (nth_error l k).
Proof.
  intros M n. induction n as [|n IH]; intros l k H; [lia|]. cbn [iter_take]. destruct l as [|m l]; cbn [iter_next]; destruct k as [|k]; cbn [nth_error]; try reflexivity.
  - rewrite IH by lia. destruct k; reflexivity.
  - apply IH. lia.
Qed.
Lemma numbered_filter : forall (msg : file_interaction -> Prop) f l k i, (forall i, f i = true <-> msg i) -> (nth_error (filter f l) k = Some i <-> numbered msg k i l).
Proof.
  intros msg f l. induction l as [|i0 l IH]; intros k i D; cbn [filter]; [split; [destruct k; discriminate | intro H; inversion H]|].
  destruct (f i0) eqn:E.
  - destruct k as [|k]; cbn [nth_error].
    + split; [intro Z; injection Z as <-; constructor; apply D, E|]. intro H. inversion H as [? ? H1 H2 H3| |? ? ? ? N H1]; subst; [reflexivity|]. exfalso. apply N, D, E.
    + rewrite (IH k i D). split; [intro H; apply num_message; [apply D, E | exact H]|]. intro H. inversion H as [|? ? ? ? N H1|? ? ? ? N H1]; subst; [exact H1|]. exfalso. apply N, D, E.
  - rewrite (IH k i D). assert (~ msg i0) as N by (intro Z; apply D in Z; congruence). split; [apply num_other, N|].
    intro H. inversion H as [? ? H1|? ? ? ? H1|? ? ? ? ? H1]; subst; [contradiction | contradiction | exact H1].
Qed.
(** Asking [n] times gives the messages of the pact in order, each of them once, and then nothing. *)
Theorem C113_async_iterator : forall p n k i, (k < n)%nat ->
  (nth_error (iter_take n (async_messages p)) k = Some (Some i) <-> numbered is_async k i (vf_ints p)) /\
  (nth_error (iter_take n (async_messages p)) k = Some None <-> (forall i, ~ numbered is_async k i (vf_ints p))).
Proof.
  intros p n k i L. rewrite take_nth by exact L.
  assert (D : forall i, match f_payload i with FAsync _ => true | _ => false end = true <-> is_async i).
  { intro i0. unfold is_async. destruct (f_payload i0); split; try discriminate; try reflexivity; try (intros (? & ?); discriminate). intros _. eexists. reflexivity. }
  unfold async_messages. split.
  - rewrite <- (numbered_filter is_async _ (vf_ints p) k i D). split; intro H; [injection H as ->; reflexivity | rewrite H; reflexivity].
  - split.
    + intros H i0 Z. apply (numbered_filter is_async _ (vf_ints p) k i0 D) in Z. rewrite Z in H. discriminate.
    + intro H. destruct (nth_error (filter _ (vf_ints p)) k) as [i0|] eqn:E; [|reflexivity]. exfalso. apply (H i0). apply (numbered_filter is_async _ (vf_ints p) k i0 D). exact E.
Qed.
(** The iterator over synchronous messages: with every message generated, or with every message as it was described. *)
Theorem C113_sync_iterator : forall gen sent p n k i, (k < n)%nat ->
  let taken := iter_take n (sync_iter (generate_sync gen) sent (sync_messages p)) in
  (nth_error taken k = Some (Some i) <-> exists i0, numbered is_sync k i0 (vf_ints p) /\ i = if sent then generate_sync gen i0 else i0) /\
  (nth_error taken k = Some None <-> (forall i, ~ numbered is_sync k i (vf_ints p))).
Proof.
  intros gen sent p n k i L. cbv zeta. rewrite take_nth by exact L.
  assert (D : forall i, match f_payload i with FSync _ _ => true | _ => false end = true <-> is_sync i).
  { intro i0. unfold is_sync. destruct (f_payload i0); split; try discriminate; try reflexivity; try (intros (? & ? & ?); discriminate). intros _. eexists _, _. reflexivity. }
  assert (E : nth_error (sync_iter (generate_sync gen) sent (sync_messages p)) k = option_map (fun i0 => if sent then generate_sync gen i0 else i0) (nth_error (sync_messages p) k)).
  { unfold sync_iter. destruct sent; [apply nth_error_map|]. destruct (nth_error (sync_messages p) k); reflexivity. }
  rewrite E. unfold sync_messages. split.
  - split.
    + intro H. injection H as H. destruct (nth_error (filter _ (vf_ints p)) k) as [i0|] eqn:F; [|discriminate]. cbn [option_map] in H. injection H as <-.
      exists i0. split; [apply (numbered_filter is_sync _ (vf_ints p) k i0 D); exact F | reflexivity].
    + intros (i0 & Z & ->). apply (numbered_filter is_sync _ (vf_ints p) k i0 D) in Z. rewrite Z. reflexivity.
  - split.
    + intros H i0 Z. apply (numbered_filter is_sync _ (vf_ints p) k i0 D) in Z. rewrite Z in H. discriminate.
    + intro H. destruct (nth_error (filter _ (vf_ints p)) k) as [i0|] eqn:F; [|reflexivity]. exfalso. apply (H i0). apply (numbered_filter is_sync _ (vf_ints p) k i0 D). exact F.
Qed.
(** Generating changes the contents of the request and of each response with their own generators, and nothing else. *)
Theorem C113_generated : forall gen i q r, f_payload i = FSync q r ->
  let i' := generate_sync gen i in
  f_id i' = f_id i /\ f_key i' = f_key i /\ f_desc i' = f_desc i /\ f_states i' = f_states i /\ f_extra i' = f_extra i /\
  exists q' r', f_payload i' = FSync q' r' /\ q' = (gen (snd q) (fst q), snd q) /\ Forall2 (fun m m' => m' = (gen (snd m) (fst m), snd m)) r r'.
Proof.
  intros gen i q r F. cbv zeta. unfold generate_sync. rewrite F. cbn [f_id f_key f_desc f_states f_extra f_payload]. repeat (apply conj); try reflexivity.
  eexists _, _. split; [reflexivity|]. split; [reflexivity|]. clear F. induction r as [|m r IH]; constructor; [reflexivity | exact IH].
Qed.
End Pacts.
