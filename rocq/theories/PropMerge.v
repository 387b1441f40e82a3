(** C28-C30: merging pacts and rewriting pact files. *)
From Coq Require Import Ascii String List Arith NArith ZArith Lia Bool Permutation Sorted.
From Verif Require Import Base PathExp Json Text MatchingRules Matchers JsonCompare Headers Query ContentType Http
  Merge SpecMerge RulesProofs3 PropHttp2 MergeProofs.
Import ListNotations.
Open Scope N_scope.

(** ** C30: what is refused *)
Lemma who_eqb_iff : forall a b, who_eqb a b = true <-> consumer a = consumer b /\ provider a = provider b.
Proof.
  intros a b. unfold who_eqb. rewrite andb_true_iff.
  destruct (str_eqb_spec (consumer a) (consumer b)); destruct (str_eqb_spec (provider a) (provider b)); intuition congruence.
Qed.

Lemma all_v4 : forall l, all_some (map as_v4 l) <> None.
Proof.
  induction l as [|i l IH]; [discriminate|]. cbn [map all_some].
  destruct i; cbn [as_v4]; (destruct (all_some (map as_v4 l)); [discriminate|congruence]).
Qed.

(** Pacts are refused for their participants exactly if a name differs. *)
Theorem C30_participants : forall p o,
  merge p o = Err DifferentParticipants <->
  (consumer (who p) <> consumer (who o) \/ provider (who p) <> provider (who o)).
Proof.
  intros p o.
  assert (B : who_eqb (who p) (who o) = false <->
      (consumer (who p) <> consumer (who o) \/ provider (who p) <> provider (who o))).
  { pose proof (who_eqb_iff (who p) (who o)) as I.
    unfold who_eqb in *. destruct (str_eqb_spec (consumer (who p)) (consumer (who o)));
    destruct (str_eqb_spec (provider (who p)) (provider (who o))); cbn in *; intuition congruence. }
  rewrite <- B. destruct p as [p|p|p]; cbn [merge who].
  - unfold rr_merge. destruct (who_eqb (rrp_who p) (who o)); [|tauto].
    rewrite product_correct. split; [|discriminate].
    destruct (nonempty _); [discriminate|]. destruct (all_some _); discriminate.
  - unfold msg_merge. destruct (who_eqb (mp_who p) (who o)); [|tauto]. split; [|discriminate].
    destruct (all_some _); discriminate.
  - unfold v4_merge. destruct (who_eqb (vp_who p) (who o)); [|tauto]. split; [|discriminate].
    destruct (all_some _); discriminate.
Qed.

(** No two pacts make the merge panic. *)
Theorem C30_never_panics : forall p o, merge p o <> Panic.
Proof.
  intros p o H. destruct p as [p|p|p]; cbn [merge] in H.
  - unfold rr_merge in H. destruct (who_eqb _ _); [|discriminate]. rewrite product_correct in H.
    destruct (nonempty _); [discriminate|]. destruct (all_some _); discriminate.
  - unfold msg_merge in H. destruct (who_eqb _ _); [|discriminate]. destruct (all_some _); discriminate.
  - unfold v4_merge in H. destruct (who_eqb _ _); [|discriminate].
    destruct (all_some (map as_v4 (interactions o))) eqn:E; [discriminate|]. exact (all_v4 _ E).
Qed.

Lemma conflicts_iff : forall a b,
  rr_ok a -> match as_request_response b with Some o => rr_ok o | None => True end ->
  (nonempty (conflicts_with a b) = true <-> conflict_between a b).
Proof.
  intros a b [Sa Qa] Hb. unfold conflicts_with, conflict_between.
  destruct (as_request_response b) as [o|]; [|split; [constructor|reflexivity]].
  destruct Hb as [So Qo].
  rewrite <- (states_eqb_iff _ _ Sa So).
  destruct (str_eqb_spec (rr_desc a) (rr_desc o)) as [E|N];
    [|cbn [andb]; split; [discriminate|intros [? _]; contradiction]].
  destruct (list_eqb state_eqb (rr_states a) (rr_states o)); cbn [andb];
    [|split; [discriminate|intros [_ [C _]]; discriminate]].
  assert (Q : opt_eqb (map_eqb (list_eqb (opt_eqb str_eqb))) (req_query (rr_req a)) (req_query (rr_req o)) = true
              <-> same_query (req_query (rr_req a)) (req_query (rr_req o))).
  { unfold opt_eqb, same_query. destruct (req_query (rr_req a)) as [qa|]; destruct (req_query (rr_req o)) as [qo|];
      try (split; [discriminate|contradiction]); try (split; [constructor|reflexivity]).
    rewrite (map_eqb_iff _ (list_eqb (opt_eqb str_eqb)) qa qo Qa Qo). unfold same_map.
    assert (L : forall x y, list_eqb (opt_eqb str_eqb) x y = true <-> x = y).
    { apply list_eqb_eq. intros [x|] [y|]; cbn; try (split; congruence).
      destruct (str_eqb_spec x y); split; congruence. }
    split; intros H k; specialize (H k); destruct (obj_get k qa), (obj_get k qo); try exact H; apply L; exact H. }
  unfold request_differences, response_differences.
  destruct (str_eqb_spec (req_method (rr_req a)) (req_method (rr_req o))) as [Em|Nm];
    [|split; [tauto|reflexivity]].
  destruct (str_eqb_spec (req_path (rr_req a)) (req_path (rr_req o))) as [Ep|Np];
    [|split; [tauto|reflexivity]].
  destruct (opt_eqb _ _ _) eqn:Eq_; cbn [app].
  - destruct (N.eqb_spec (resp_status (rr_resp a)) (resp_status (rr_resp o))) as [Es|Ns].
    + split; [discriminate|]. intros [_ [_ [C|[C|[C|C]]]]]; try contradiction. destruct (C (proj1 Q eq_refl)).
    + split; [tauto|reflexivity].
  - split; [|reflexivity]. intros _. split; [exact E|]. split; [reflexivity|]. right. right. left.
    intro C. apply Q in C. discriminate.
Qed.

Definition others_ok (o : pact) : Prop :=
  Forall (fun b => match as_request_response b with Some r => rr_ok r | None => True end) (interactions o).

Lemma filter_nil : forall A (f : A -> bool) l, nonempty (filter f l) = true <-> exists x, In x l /\ f x = true.
Proof.
  intros A f l. induction l as [|a l IH]; cbn.
  - split; [discriminate|intros [x [[] _]]].
  - destruct (f a) eqn:E.
    + split; [|reflexivity]. intros _. exists a. split; [left; reflexivity|exact E].
    + rewrite IH. split; intros [x [Hx F]].
      * exists x. split; [right; exact Hx|exact F].
      * destruct Hx as [->|Hx]; [congruence|]. exists x. split; assumption.
Qed.

Lemma conflicting_pairs : forall (p : list rr) (o : list interaction),
  Forall rr_ok p -> Forall (fun b => match as_request_response b with Some r => rr_ok r | None => True end) o ->
  (nonempty (filter (fun c => nonempty c) (map (fun ab => conflicts_with (fst ab) (snd ab)) (list_prod p o))) = true <->
   exists a b, In a p /\ In b o /\ conflict_between a b).
Proof.
  intros p o Hp Ho. rewrite filter_nil. rewrite Forall_forall in Hp, Ho. split.
  - intros [c [Hc N]]. apply in_map_iff in Hc. destruct Hc as [[a b] [<- Hab]]. cbn [fst snd] in N.
    apply in_prod_iff in Hab. destruct Hab as [Ha Hb]. exists a, b. repeat split; try assumption.
    apply conflicts_iff; auto. exact (Ho b Hb).
  - intros [a [b [Ha [Hb C]]]]. exists (conflicts_with a b). split.
    + apply in_map_iff. exists (a, b). split; [reflexivity|]. apply in_prod_iff. tauto.
    + apply conflicts_iff; auto. exact (Ho b Hb).
Qed.

(** A V3 request/response pact is refused for conflicts exactly if some interaction of it
    conflicts with one of the other pact. *)
Theorem C30_conflicts : forall p o,
  Forall rr_ok (rrp_ints p) -> others_ok o ->
  consumer (rrp_who p) = consumer (who o) -> provider (rrp_who p) = provider (who o) ->
  ((exists n, merge (PRR p) o = Err (Conflicting n)) <->
   exists a b, In a (rrp_ints p) /\ In b (interactions o) /\ conflict_between a b).
Proof.
  intros p o Hp Ho Ec Ep. cbn [merge]. unfold rr_merge.
  rewrite (proj2 (who_eqb_iff _ _) (conj Ec Ep)), product_correct.
  rewrite <- (conflicting_pairs _ _ Hp Ho).
  destruct (nonempty (filter _ _)).
  - split; [reflexivity|]. intros _. eexists. reflexivity.
  - split; [|discriminate]. intros [n H]. destruct (all_some _); discriminate.
Qed.

(** Messages and V4 pacts are never refused for conflicts. *)
Theorem C30_only_http_conflicts : forall p o n, merge p o = Err (Conflicting n) -> exists q, p = PRR q /\ (n > 0)%nat.
Proof.
  intros p o n H. destruct p as [p|p|p]; cbn [merge] in H.
  - exists p. split; [reflexivity|]. unfold rr_merge in H. destruct (who_eqb _ _); [|discriminate].
    rewrite product_correct in H. destruct (filter _ _) as [|c l] eqn:E.
    + cbn [nonempty] in H. destruct (all_some _); discriminate.
    + cbn [nonempty] in H. injection H as <-. cbn. lia.
  - unfold msg_merge in H. destruct (who_eqb _ _); [|discriminate]. destruct (all_some _); discriminate.
  - unfold v4_merge in H. destruct (who_eqb _ _); [|discriminate]. destruct (all_some _); discriminate.
Qed.

(** ** C28: what a merged pact contains *)
Lemma joined_other : forall A (cmp : A -> interaction -> comparison) (conv : interaction -> option A) (same : A -> interaction -> Prop) l r es,
  (forall a b, cmp a b = Eq -> same a b) -> joined cmp l r es ->
  interleaved Some conv same (fun _ b => conv b) l r (map (take_other conv) es).
Proof.
  intros A cmp conv same l r es Hs J. induction J; cbn [map take_other].
  - apply il_nil.
  - apply il_left. exact IHJ.
  - apply il_right. exact IHJ.
  - apply (il_both Some conv same (fun _ b => conv b)); auto.
Qed.

Theorem C28_http_pacts : forall p o m, merge (PRR p) o = Ok m ->
  exists l, m = PRR (mkRRP (rrp_who p) l (rrp_meta p)) /\
    interleaved Some as_request_response (fun a b => same_v3 (rr_desc a) (rr_states a) b)
      (fun _ b => as_request_response b) (rrp_ints p) (interactions o) (map Some l).
Proof.
  intros p o m H. cbn [merge] in H. unfold rr_merge in H.
  destruct (who_eqb _ _); [|discriminate]. rewrite product_correct in H.
  destruct (nonempty _); [discriminate|].
  destruct (all_some _) as [l|] eqn:E; [|discriminate]. injection H as <-.
  exists l. split; [reflexivity|]. apply all_some_inv in E. rewrite <- E.
  eapply joined_other; [|apply merge_join_joined]. cbv beta. intros a b C. apply v3_cmp_eq, C.
Qed.

Theorem C28_message_pacts : forall p o m, merge (PMsg p) o = Ok m ->
  exists l, m = PMsg (mkMP (mp_who p) l (mp_meta p)) /\
    interleaved Some as_message (fun a b => same_v3 (m_desc a) (m_states a) b)
      (fun _ b => as_message b) (mp_msgs p) (interactions o) (map Some l).
Proof.
  intros p o m H. cbn [merge] in H. unfold msg_merge in H.
  destruct (who_eqb _ _); [|discriminate].
  destruct (all_some _) as [l|] eqn:E; [|discriminate]. injection H as <-.
  exists l. split; [reflexivity|]. apply all_some_inv in E. rewrite <- E.
  eapply joined_other; [|apply merge_join_joined]. cbv beta. intros a b C. apply v3_cmp_eq, C.
Qed.

Theorem C28_v4_pacts : forall p o m, merge (PV4 p) o = Ok m ->
  exists others l plugins, map as_v4 (interactions o) = map Some others /\
    m = PV4 (mkV4P (vp_who p) l (vp_meta p) plugins) /\
    interleaved (fun a => a) (fun b => b) same_v4 (fun a _ => a) (vp_ints p) others l.
Proof.
  intros p o m H. cbn [merge] in H. unfold v4_merge in H.
  destruct (who_eqb _ _); [|discriminate].
  destruct (all_some _) as [others|] eqn:E; [|discriminate]. injection H as <-.
  apply all_some_inv in E. eexists others, _, _. split; [exact E|]. split; [reflexivity|].
  assert (J := merge_join_joined _ _ v4_cmp (vp_ints p) others).
  clear E. induction J; cbn [map take_self].
  - apply il_nil.
  - apply il_left. exact IHJ.
  - apply il_right. exact IHJ.
  - apply (il_both (fun a => a) (fun b => b) same_v4 (fun a _ => a)); [apply v4_cmp_eq; assumption|exact IHJ].
Qed.

(** A merge of well-matched kinds of pacts of the same participants succeeds: V4 pacts
    merge with anything, message pacts with message pacts, and request/response pacts
    with request/response pacts without conflicts. *)
Theorem C28_merge_succeeds : forall p o,
  consumer (who p) = consumer (who o) -> provider (who p) = provider (who o) ->
  match p with
  | PV4 _ => True
  | PMsg _ => forall b, In b (interactions o) -> as_message b <> None
  | PRR q => Forall rr_ok (rrp_ints q) /\ others_ok o /\
      (forall a b, In a (rrp_ints q) -> In b (interactions o) -> ~ conflict_between a b) /\
      (forall b, In b (interactions o) -> as_request_response b <> None)
  end -> exists m, merge p o = Ok m.
Proof.
  intros p o Ec Ep H.
  assert (J : forall A (cmp : A -> interaction -> comparison) (conv : interaction -> option A) l r es,
    (forall b, In b r -> conv b <> None) -> joined cmp l r es -> all_some (map (take_other conv) es) <> None).
  { intros A cmp conv l r es Hc J. induction J; cbn [map take_other all_some]; [discriminate| | |].
    - destruct (all_some (map (take_other conv) es)); [discriminate|]. destruct (IHJ Hc eq_refl).
    - destruct (conv b) eqn:E; [|destruct (Hc b (or_introl eq_refl) E)].
      destruct (all_some (map (take_other conv) es)); [discriminate|].
      exfalso. apply IHJ; [|reflexivity]. intros x Hx. apply Hc. right. exact Hx.
    - destruct (conv b) eqn:E; [|destruct (Hc b (or_introl eq_refl) E)].
      destruct (all_some (map (take_other conv) es)); [discriminate|].
      exfalso. apply IHJ; [|reflexivity]. intros x Hx. apply Hc. right. exact Hx. }
  destruct p as [p|p|p]; cbn [merge who] in *.
  - destruct H as [Hp [Ho [NC Hc]]]. unfold rr_merge.
    rewrite (proj2 (who_eqb_iff _ _) (conj Ec Ep)), product_correct.
    destruct (nonempty _) eqn:E.
    + apply (conflicting_pairs _ _ Hp Ho) in E. destruct E as [a [b [Ha [Hb C]]]]. destruct (NC a b Ha Hb C).
    + destruct (all_some _) as [l|] eqn:F; [eexists; reflexivity|].
      destruct (J _ _ _ _ _ _ Hc (merge_join_joined _ _ (fun a b => v3_cmp (rr_desc a) (rr_states a) b) (rrp_ints p) (interactions o)) F).
  - unfold msg_merge. rewrite (proj2 (who_eqb_iff _ _) (conj Ec Ep)).
    destruct (all_some _) as [l|] eqn:F; [eexists; reflexivity|].
    destruct (J _ _ _ _ _ _ H (merge_join_joined _ _ (fun a b => v3_cmp (m_desc a) (m_states a) b) (mp_msgs p) (interactions o)) F).
  - unfold v4_merge. rewrite (proj2 (who_eqb_iff _ _) (conj Ec Ep)).
    destruct (all_some _) eqn:E; [eexists; reflexivity|]. destruct (all_v4 _ E).
Qed.

(** Interactions of two pacts that merging takes to be the same one. *)
Definition taken_as_same (p : pact) (a b : interaction) : Prop :=
  match p with
  | PV4 _ => match as_v4 a, as_v4 b with Some x, Some y => same_v4 x y | _, _ => False end
  | _ => same_v3 (i_desc a) (i_states a) b
  end.
Definition same_description_and_states (a b : interaction) : Prop :=
  i_desc a = i_desc b /\ i_states a = i_states b.

Lemma interleaved_left : forall A B C (f : A -> C) (g : B -> C) same pick l r out a,
  interleaved f g same pick l r out -> In a l ->
  In (f a) out \/ exists b, In b r /\ same a b /\ In (pick a b) out.
Proof.
  intros A B C f g same pick l r out a J. induction J; intro HH.
  - destruct HH.
  - destruct HH as [->|HH]; [left; left; reflexivity|].
    destruct (IHJ HH) as [I|[b [Hb [Sb I]]]]; [left; right; exact I|].
    right. exists b. repeat split; try assumption. right. exact I.
  - destruct (IHJ HH) as [I|[x [Hb [Sb I]]]]; [left; right; exact I|].
    right. exists x. repeat split; try assumption; right; assumption.
  - destruct HH as [->|HH].
    + right. exists b. repeat split; [left; reflexivity|assumption|left; reflexivity].
    + destruct (IHJ HH) as [I|[x [Hb [Sb I]]]]; [left; right; exact I|].
      right. exists x. repeat split; try assumption; right; assumption.
Qed.
Lemma interleaved_right : forall A B C (f : A -> C) (g : B -> C) same pick l r out b,
  interleaved f g same pick l r out -> In b r ->
  In (g b) out \/ exists a, In a l /\ same a b /\ In (pick a b) out.
Proof.
  intros A B C f g same pick l r out b J. induction J; intro HH.
  - destruct HH.
  - destruct (IHJ HH) as [I|[x [Hb [Sb I]]]]; [left; right; exact I|].
    right. exists x. repeat split; try assumption; right; assumption.
  - destruct HH as [->|HH]; [left; left; reflexivity|].
    destruct (IHJ HH) as [I|[x [Hb [Sb I]]]]; [left; right; exact I|].
    right. exists x. repeat split; try assumption. right. exact I.
  - destruct HH as [->|HH].
    + right. exists a. repeat split; [left; reflexivity|assumption|left; reflexivity].
    + destruct (IHJ HH) as [I|[x [Hb [Sb I]]]]; [left; right; exact I|].
      right. exists x. repeat split; try assumption; right; assumption.
Qed.
Lemma interleaved_out : forall A B C (f : A -> C) (g : B -> C) same pick l r out c,
  interleaved f g same pick l r out -> In c out ->
  (exists a, In a l /\ c = f a) \/ (exists b, In b r /\ c = g b) \/
  (exists a b, In a l /\ In b r /\ same a b /\ c = pick a b).
Proof.
  intros A B C f g same pick l r out c J. induction J; intro HH.
  - destruct HH.
  - destruct HH as [<-|HH]; [left; exists a; split; [left|]; reflexivity|].
    destruct (IHJ HH) as [[x [Hx E]]|[[x [Hx E]]|[x [y [Hx [Hy [Sb E]]]]]]].
    + left. exists x. split; [right|]; assumption.
    + right. left. exists x. split; assumption.
    + right. right. exists x, y. repeat split; try assumption. right. assumption.
  - destruct HH as [<-|HH]; [right; left; exists b; split; [left|]; reflexivity|].
    destruct (IHJ HH) as [[x [Hx E]]|[[x [Hx E]]|[x [y [Hx [Hy [Sb E]]]]]]].
    + left. exists x. split; assumption.
    + right. left. exists x. split; [right|]; assumption.
    + right. right. exists x, y. repeat split; try assumption. right. assumption.
  - destruct HH as [<-|HH].
    + right. right. exists a, b. repeat split; [left; reflexivity|left; reflexivity|assumption].
    + destruct (IHJ HH) as [[x [Hx E]]|[[x [Hx E]]|[x [y [Hx [Hy [Sb E]]]]]]].
      * left. exists x. split; [right|]; assumption.
      * right. left. exists x. split; [right|]; assumption.
      * right. right. exists x, y. repeat split; try assumption; right; assumption.
Qed.

Lemma rr_conv : forall b r, as_request_response b = Some r -> rr_desc r = i_desc b /\ rr_states r = i_states b.
Proof.
  intros [x|x|v] r H; cbn [as_request_response] in H; [injection H as <-; split; reflexivity|discriminate|].
  destruct (v_payload v); try discriminate. injection H as <-. split; reflexivity.
Qed.
Lemma msg_conv : forall b r, as_message b = Some r -> m_desc r = i_desc b /\ m_states r = i_states b.
Proof.
  intros [x|x|v] r H; cbn [as_message] in H; [discriminate|injection H as <-; split; reflexivity|].
  destruct (v_payload v); try discriminate. injection H as <-. split; reflexivity.
Qed.
Lemma v4_conv : forall b v, as_v4 b = Some v -> v_desc v = i_desc b /\ v_states v = i_states b.
Proof. intros [x|x|v] r H; cbn [as_v4] in H; injection H as <-; split; reflexivity. Qed.

Lemma map_some_in : forall A B (f : A -> option B) l l' a, map f l = map Some l' -> In a l ->
  exists b, f a = Some b /\ In b l'.
Proof.
  intros A B f l; induction l as [|x l IH]; intros [|y l'] a E H; try discriminate; [destruct H|].
  cbn in E. injection E as E1 E2. destruct H as [->|H].
  - exists y. split; [exact E1|left; reflexivity].
  - destruct (IH l' a E2 H) as [b [F I]]. exists b. split; [exact F|right; exact I].
Qed.
Lemma in_map_some_inv : forall A (l : list A) x, In (Some x) (map Some l) -> In x l.
Proof. intros A l x H. apply in_map_iff in H. destruct H as [y [E Hy]]. injection E as ->. exact Hy. Qed.

(** If the interactions that are taken to be the same one have the same description and
    provider states, then every interaction of either pact is in the merged pact, by
    description and provider states. *)
Theorem C28_nothing_lost : forall p o m,
  merge p o = Ok m ->
  (forall a b, In a (interactions p) -> In b (interactions o) -> taken_as_same p a b -> same_description_and_states a b) ->
  forall i, In i (interactions p) \/ In i (interactions o) ->
  exists j, In j (interactions m) /\ same_description_and_states j i.
Proof.
  intros p o m H U i Hi. destruct p as [p|p|p].
  - destruct (C28_http_pacts p o m H) as [l [-> J]]. cbn [interactions rrp_ints].
    assert (G : exists r, In r l /\ rr_desc r = i_desc i /\ rr_states r = i_states i).
    { destruct Hi as [Hi|Hi].
      - cbn [interactions] in Hi. apply in_map_iff in Hi. destruct Hi as [a [<- Ha]].
        destruct (interleaved_left _ _ _ _ _ _ _ _ _ _ a J Ha) as [I|[b [Hb [Sb I]]]].
        + exists a. split; [apply in_map_some_inv, I|split; reflexivity].
        + apply in_map_iff in I. destruct I as [r [E Hr]]. exists r. split; [exact Hr|].
          destruct (rr_conv b r (eq_sym E)) as [-> ->].
          destruct (U (IHttp a) b) as [D S_]; [apply in_map; exact Ha|exact Hb|exact Sb|].
          split; symmetry; assumption.
      - destruct (interleaved_right _ _ _ _ _ _ _ _ _ _ i J Hi) as [I|[a [Ha [Sb I]]]];
          (apply in_map_iff in I; destruct I as [r [E Hr]]; exists r; split; [exact Hr|];
           apply rr_conv; symmetry; exact E). }
    destruct G as [r [Hr [D E]]]. exists (IHttp r). split; [apply in_map; exact Hr|]. split; assumption.
  - destruct (C28_message_pacts p o m H) as [l [-> J]]. cbn [interactions mp_msgs].
    assert (G : exists r, In r l /\ m_desc r = i_desc i /\ m_states r = i_states i).
    { destruct Hi as [Hi|Hi].
      - cbn [interactions] in Hi. apply in_map_iff in Hi. destruct Hi as [a [<- Ha]].
        destruct (interleaved_left _ _ _ _ _ _ _ _ _ _ a J Ha) as [I|[b [Hb [Sb I]]]].
        + exists a. split; [apply in_map_some_inv, I|split; reflexivity].
        + apply in_map_iff in I. destruct I as [r [E Hr]]. exists r. split; [exact Hr|].
          destruct (msg_conv b r (eq_sym E)) as [-> ->].
          destruct (U (IMsg a) b) as [D S_]; [apply in_map; exact Ha|exact Hb|exact Sb|].
          split; symmetry; assumption.
      - destruct (interleaved_right _ _ _ _ _ _ _ _ _ _ i J Hi) as [I|[a [Ha [Sb I]]]];
          (apply in_map_iff in I; destruct I as [r [E Hr]]; exists r; split; [exact Hr|];
           apply msg_conv; symmetry; exact E). }
    destruct G as [r [Hr [D E]]]. exists (IMsg r). split; [apply in_map; exact Hr|]. split; assumption.
  - destruct (C28_v4_pacts p o m H) as [others [l [pl [Eo [-> J]]]]]. cbn [interactions vp_ints].
    assert (G : exists r, In r l /\ v_desc r = i_desc i /\ v_states r = i_states i).
    { destruct Hi as [Hi|Hi].
      - cbn [interactions] in Hi. apply in_map_iff in Hi. destruct Hi as [a [<- Ha]].
        exists a. split; [|split; reflexivity].
        destruct (interleaved_left _ _ _ _ _ _ _ _ _ _ a J Ha) as [I|[b [Hb [Sb I]]]]; exact I.
      - destruct (map_some_in _ _ _ _ _ i Eo Hi) as [v [Ev Hv]].
        destruct (v4_conv i v Ev) as [D S1].
        destruct (interleaved_right _ _ _ _ _ _ _ _ _ _ v J Hv) as [I|[a [Ha [Sb I]]]].
        + exists v. split; [exact I|]. split; assumption.
        + exists a. split; [exact I|].
          destruct (U (IV4 a) i) as [D' S']; [apply in_map; exact Ha|exact Hi| |split; assumption].
          cbn [taken_as_same as_v4]. rewrite Ev. exact Sb. }
    destruct G as [r [Hr [D E]]]. exists (IV4 r). split; [apply in_map; exact Hr|]. split; assumption.
Qed.

(** Nothing is made up: every interaction of the merged pact has the description and
    provider states of an interaction of one of the two. *)
Theorem C28_nothing_invented : forall p o m i, merge p o = Ok m -> In i (interactions m) ->
  exists j, (In j (interactions p) \/ In j (interactions o)) /\ same_description_and_states i j.
Proof.
  intros p o m i H Hi. destruct p as [p|p|p].
  - destruct (C28_http_pacts p o m H) as [l [-> J]]. cbn [interactions rrp_ints] in *.
    apply in_map_iff in Hi. destruct Hi as [r [<- Hr]].
    destruct (interleaved_out _ _ _ _ _ _ _ _ _ _ (Some r) J (in_map Some _ _ Hr))
      as [[a [Ha E]]|[[b [Hb E]]|[a [b [Ha [Hb [_ E]]]]]]].
    + injection E as ->. exists (IHttp a). split; [left; apply in_map; exact Ha|]. split; reflexivity.
    + exists b. split; [right; exact Hb|]. apply (rr_conv b r). symmetry. exact E.
    + exists b. split; [right; exact Hb|]. apply (rr_conv b r). symmetry. exact E.
  - destruct (C28_message_pacts p o m H) as [l [-> J]]. cbn [interactions mp_msgs] in *.
    apply in_map_iff in Hi. destruct Hi as [r [<- Hr]].
    destruct (interleaved_out _ _ _ _ _ _ _ _ _ _ (Some r) J (in_map Some _ _ Hr))
      as [[a [Ha E]]|[[b [Hb E]]|[a [b [Ha [Hb [_ E]]]]]]].
    + injection E as ->. exists (IMsg a). split; [left; apply in_map; exact Ha|]. split; reflexivity.
    + exists b. split; [right; exact Hb|]. apply (msg_conv b r). symmetry. exact E.
    + exists b. split; [right; exact Hb|]. apply (msg_conv b r). symmetry. exact E.
  - destruct (C28_v4_pacts p o m H) as [others [l [pl [Eo [-> J]]]]]. cbn [interactions vp_ints] in *.
    apply in_map_iff in Hi. destruct Hi as [r [<- Hr]].
    destruct (interleaved_out _ _ _ _ _ _ _ _ _ _ r J Hr)
      as [[a [Ha E]]|[[b [Hb E]]|[a [b [Ha [Hb [_ E]]]]]]].
    + subst r. exists (IV4 a). split; [left; apply in_map; exact Ha|]. split; reflexivity.
    + subst r. assert (Hs : In (Some b) (map as_v4 (interactions o))) by (rewrite Eo; apply in_map; exact Hb).
      apply in_map_iff in Hs. destruct Hs as [j [Ej Hj]]. exists j. split; [right; exact Hj|].
      apply (v4_conv j b Ej).
    + subst r. exists (IV4 a). split; [left; apply in_map; exact Ha|]. split; reflexivity.
Qed.

(** Examples for the limits. *)
Definition ex_who : participants := mkWho (S_ "c") (S_ "p").
Definition ex_get (path : str) : request := mkReq (S_ "GET") path None None BMissing [].
Definition ex_resp : response := mkResp 200 None BMissing [].
Definition ex_rr (d : str) (st : list pstate) (path : str) : rr := mkRRI None d st (ex_get path) ex_resp.
Definition ex_state (n : str) (ps : list (str * json)) : pstate := mkState n ps.
Definition ex_v4 (key : option str) (d : str) (st : list pstate) : v4i :=
  mkV4 None key d st (SyncHttp (ex_get (S_ "/")) ex_resp) extra_default.

(** The condition of [C28_nothing_lost] is needed. An interaction without provider states
    disappears if the other pact has one with the same description and a provider state. *)
Theorem C28_why_states_alike : exists p o m i,
  merge (PRR p) (PRR o) = Ok m /\ In i (rrp_ints p) /\
  ~ exists j, In j (interactions m) /\ same_description_and_states j (IHttp i).
Proof.
  exists (mkRRP ex_who [ex_rr (S_ "d") [] (S_ "/a")] []),
         (mkRRP ex_who [ex_rr (S_ "d") [ex_state (S_ "s") []] (S_ "/b")] []).
  eexists. exists (ex_rr (S_ "d") [] (S_ "/a")).
  split; [reflexivity|]. split; [left; reflexivity|].
  intros [j [Hj [D E]]]. cbn in Hj. destruct Hj as [<-|[]]. discriminate E.
Qed.
(** So does one whose provider state has other parameters. *)
Theorem C28_why_parameters_alike : exists p o m i,
  merge (PRR p) (PRR o) = Ok m /\ In i (rrp_ints p) /\
  ~ exists j, In j (interactions m) /\ same_description_and_states j (IHttp i).
Proof.
  exists (mkRRP ex_who [ex_rr (S_ "d") [ex_state (S_ "s") [(S_ "id", JNum (PosInt 1))]] (S_ "/a")] []),
         (mkRRP ex_who [ex_rr (S_ "d") [ex_state (S_ "s") [(S_ "id", JNum (PosInt 2))]] (S_ "/b")] []).
  eexists. exists (ex_rr (S_ "d") [ex_state (S_ "s") [(S_ "id", JNum (PosInt 1))]] (S_ "/a")).
  split; [reflexivity|]. split; [left; reflexivity|].
  intros [j [Hj [D E]]]. cbn in Hj. destruct Hj as [<-|[]]. discriminate E.
Qed.
(** In V4 pacts it is the other pact's that disappears, whatever its description, if the keys agree. *)
Theorem C28_why_keys_distinct : exists p o m i,
  merge (PV4 p) (PV4 o) = Ok m /\ In i (vp_ints o) /\
  ~ exists j, In j (interactions m) /\ i_desc j = i_desc (IV4 i).
Proof.
  exists (mkV4P ex_who [ex_v4 (Some (S_ "k")) (S_ "d") []] [] []),
         (mkV4P ex_who [ex_v4 (Some (S_ "k")) (S_ "e") []] [] []).
  eexists. exists (ex_v4 (Some (S_ "k")) (S_ "e") []).
  split; [reflexivity|]. split; [left; reflexivity|].
  intros [j [Hj D]]. cbn in Hj. destruct Hj as [<-|[]]. discriminate D.
Qed.

(** The hypotheses of the theorems above are met by pacts that share one interaction and
    differ in others. *)
Example C28_example :
  let p := mkRRP ex_who [ex_rr (S_ "a") [ex_state (S_ "s") []] (S_ "/a"); ex_rr (S_ "b") [] (S_ "/b")] [] in
  let o := mkRRP ex_who [ex_rr (S_ "b") [] (S_ "/b"); ex_rr (S_ "c") [] (S_ "/c")] [] in
  merge (PRR p) (PRR o) =
    Ok (PRR (mkRRP ex_who [ex_rr (S_ "a") [ex_state (S_ "s") []] (S_ "/a"); ex_rr (S_ "b") [] (S_ "/b"); ex_rr (S_ "c") [] (S_ "/c")] []))
  /\ (forall a b, In a (interactions (PRR p)) -> In b (interactions (PRR o)) -> taken_as_same (PRR p) a b ->
        same_description_and_states a b).
Proof.
  cbv zeta. split; [reflexivity|].
  intros a b Ha Hb [D _]. cbn in Ha, Hb.
  destruct Ha as [<-|[<-|[]]]; destruct Hb as [<-|[<-|[]]]; cbn in D; try discriminate D; split; reflexivity.
Qed.
Example C30_example :
  let p := mkRRP ex_who [ex_rr (S_ "a") [] (S_ "/a")] [] in
  let o := mkRRP ex_who [ex_rr (S_ "a") [] (S_ "/b")] [] in
  merge (PRR p) (PRR o) = Err (Conflicting 1) /\ Forall rr_ok (rrp_ints p) /\ others_ok (PRR o).
Proof.
  cbv zeta. split; [reflexivity|]. split.
  - constructor; [|constructor]. split; [constructor|exact I].
  - constructor; [|constructor]. split; [constructor|exact I].
Qed.
