(** Proofs about the builders of the consumer DSL: the rules for a name, and what they accept. *)
From Coq Require Import Ascii String List Arith NArith ZArith Lia Bool Permutation Sorted.
From Verif Require Import Base PathExp PathExpProofs SpecPath PropPath Json Text TextProofs MatchingRules RulesV2 SpecRules Matchers JsonCompare SpecMatch SpecValues
  CompareProofs CompareProofs2 SpecBody BodyProofs Headers Query ContentType SpecXml SpecQuery SpecHeaders SpecHttp Http QueryProofs PropHttp PropHeaders Pattern SpecPattern PatternProofs PropPattern
  SpecParams PropParams PropParams2 Generators Builder SpecBuilder BuilderProofs BuilderProofs2.
Import ListNotations.
Open Scope N_scope.
Local Opaque show_N.

(** ** The part of a request *)
Section Parts.
Variable w : world.
Variable x : externals.
Lemma part_step_same : forall c b p, pb_headers b = pb_headers p -> pb_body b = pb_body p ->
  pb_headers (part_step w x b c) = pb_headers (part_step w x p c) /\ pb_body (part_step w x b c) = pb_body (part_step w x p c).
Proof. intros c b p H B. destruct c; cbn; rewrite ?H, ?B; auto. Qed.
Lemma request_part : forall h b p, pb_headers (rb_part b) = pb_headers p -> pb_body (rb_part b) = pb_body p ->
  pb_headers (rb_part (fold_left (request_step w x) h b)) = pb_headers (fold_left (part_step w x) (part_calls h) p) /\
  pb_body (rb_part (fold_left (request_step w x) h b)) = pb_body (fold_left (part_step w x) (part_calls h) p).
Proof.
  induction h as [|c h IH]; intros b p H B; [split; assumption|]. cbn [fold_left]. unfold part_calls. cbn [flat_map].
  destruct c as [m|q|e q|n v|pc]; try (apply IH; assumption).
  cbn [app fold_left]. apply IH; cbn [request_step rb_part]; apply (part_step_same pc _ _ H B).
Qed.
(** The body after the calls is the one of the last call that sets it. *)
Definition body_of (c : part_call) : body :=
  match c with
  | PBody t => BPresent (utf8 t) None None
  | PBody2 t ct => BPresent (utf8 t) (parse_mime x ct) None
  | PJsonBody p => BPresent (utf8 (json_show w (to_example p))) (Some (content_type_of x (S_ "application/json"))) None
  | PBodyMatching p => BPresent (utf8 (s_example p)) (Some (content_type_of x (S_ "text/plain"))) None
  | PBodyMatching2 p ct => BPresent (utf8 (s_example p)) (parse_mime x ct) None
  | _ => BMissing
  end.
Lemma body_after : forall l b, pb_body (fold_left (part_step w x) l b) = last (map body_of (body_calls l)) (pb_body b).
Proof.
  induction l as [|c l IH]; intro b; [reflexivity|]. cbn [fold_left]. rewrite IH.
  assert (forall v (bs : list body) d, last (v :: bs) d = last bs v) as L.
  { intros v bs. revert v. induction bs as [|y bs IHb]; intros v d; [reflexivity|]. change (last (v :: y :: bs) d) with (last (y :: bs) d). rewrite !IHb. reflexivity. }
  destruct c; cbn [body_calls filter map]; rewrite ?L; reflexivity.
Qed.
End Parts.

(** ** The rules for a name *)
Definition named_rel (l : list (str * string_pattern)) : list (list token * rule) :=
  flat_map (fun nv => map (fun r => ([TField (fst nv)], r)) (s_rules (snd nv))) l.
Definition tidy (m : list (docpath * rulelist)) (R : list (list token * rule)) : Prop := NoDup (map fst m) /\ describes m R.
Lemma named_tokens : forall n, named_path n = from_tokens [TRoot; TField n].
Proof. intro n. unfold named_path, push_field, push, from_tokens, path_root. cbn [path_tokens path_expr app build_expr token_expr]. rewrite app_nil_r. reflexivity. Qed.
Lemma push_rules_tidy : forall n rs m R, tidy m R -> tidy (push_rules (named_path n) m rs) (R ++ map (fun r => ([TField n], r)) rs).
Proof.
  intro n. induction rs as [|r rs IH]; intros m R [ND D]; cbn [push_rules fold_left map]; [rewrite app_nil_r; split; assumption|].
  destruct (hm_push_describes m R [TField n] r ND D) as [ND' D'].
  replace (R ++ ([TField n], r) :: map (fun r => ([TField n], r)) rs) with ((R ++ [([TField n], r)]) ++ map (fun r => ([TField n], r)) rs) by (rewrite <- app_assoc; reflexivity).
  apply IH. rewrite named_tokens. split; assumption.
Qed.
Lemma named_tidy : forall l m R, tidy m R -> tidy (fold_left push_named l m) (R ++ named_rel l).
Proof.
  induction l as [|[n v] l IH]; intros m R T; cbn [fold_left]; [unfold named_rel; cbn; rewrite app_nil_r; exact T|].
  unfold named_rel. cbn [flat_map]. rewrite app_assoc. apply IH. unfold push_named. cbn [fst snd]. apply push_rules_tidy, T.
Qed.
Lemma tidy_nil : tidy [] [].
Proof. split; [constructor|]. split; [intros ? [] | intros ? ? []]. Qed.
Lemma tidy_perm : forall m m' R, Permutation m m' -> tidy m R -> tidy m' R.
Proof.
  intros m m' R P [ND [D1 D2]]. split; [apply (Permutation_NoDup (Permutation_map fst P) ND)|]. split.
  - intros e J. apply D1. eapply Permutation_in; [apply Permutation_sym, P | exact J].
  - intros t r J. destruct (D2 t r J) as [rl K]. exists rl. eapply Permutation_in; [exact P | exact K].
Qed.
Lemma in_named_rel : forall l t r, In (t, r) (named_rel l) <-> exists n v, In (n, v) l /\ t = [TField n] /\ In r (s_rules v).
Proof.
  intros l t r. unfold named_rel. rewrite in_flat_map. split.
  - intros ([n v] & J & K). cbn [fst snd] in K. apply in_map_iff in K as (r0 & E & K). injection E as <- <-. exists n, v. auto.
  - intros (n & v & J & -> & K). exists (n, v). split; [exact J|]. apply in_map_iff. exists r. auto.
Qed.

(** The rules that apply at a place below [$.k], in a category for names. *)
Section Named.
Variable m : category.
Variable R : list (list token * rule).
Hypothesis NB : cat_rules m <> [] -> cat_name m <> CBody.
Hypothesis T : tidy (cat_rules m) R.
Hypothesis FL : forall t r, In (t, r) R -> exists n, t = [TField n].
Lemma field_candidate : forall p k rest n, to_vec p = S_ "$" :: k :: rest -> (candidate (to_vec p) (from_tokens [TRoot; TField n]) <-> n = k).
Proof.
  intros p k rest n V. rewrite <- matches_iff. rewrite V. unfold matches_path, path_weight. cbn [from_tokens path_tokens length].
  assert (N.of_nat 2 <=? N.of_nat (S (S (length rest))) = true) as -> by (apply N.leb_le; lia).
  cbn [fst weight_fold matches_token]. rewrite str_eqb_refl. destruct (str_eqb_spec k n) as [->|Ne].
  - split; reflexivity.
  - split; [discriminate | congruence].
Qed.
Lemma entry_for : forall e, In e (cat_rules m) -> exists n, fst e = from_tokens [TRoot; TField n] /\ rl_logic (snd e) = And /\ rl_rules (snd e) <> [] /\
  forall r, In r (rl_rules (snd e)) <-> In ([TField n], r) R.
Proof.
  intros e J. destruct T as [_ [D1 _]]. destruct (D1 e J) as (t & E & L & NE & S).
  assert (exists n, t = [TField n]) as [n ->].
  { destruct (rl_rules (snd e)) as [|r rs]; [congruence|]. apply (FL t r), S. left. reflexivity. }
  exists n. auto.
Qed.
Lemma none_named : forall p k rest, to_vec p = S_ "$" :: k :: rest -> (no_rule_at m p <-> forall r, ~ In ([TField k], r) R).
Proof.
  intros p k rest V. split.
  - intros H r J. destruct (proj2 (proj2 T) _ _ J) as [rl K]. apply (H _ K). cbn [fst]. apply (field_candidate p k rest k V). reflexivity.
  - intros H e J C. destruct (entry_for e J) as (n & E & _ & NE & S). rewrite E in C. apply (field_candidate p k rest n V) in C. subst n.
    destruct (rl_rules (snd e)) as [|r rs]; [congruence|]. apply (H r), S. left. reflexivity.
Qed.
Lemma by_named : forall p k rest holds, to_vec p = S_ "$" :: k :: rest -> (forall r b b', In ([TField k], r) R -> (holds r b <-> holds r b')) ->
  (by_rules m p holds <-> (exists r, In ([TField k], r) R) /\ forall r, In ([TField k], r) R -> holds r false).
Proof.
  intros p k rest holds V St. assert (cat_rules m = [] \/ cat_name m <> CBody) as CN.
  { destruct (cat_rules m) eqn:E; [left; reflexivity|]. right. apply NB. discriminate. }
  unfold by_rules, applies. split.
  - intros (rl & A & NE & Co). assert (exists q, In (q, rl) (cat_rules m) /\ candidate (to_vec p) q) as (q & J & C).
    { destruct CN as [E|Nn].
      - destruct (cat_name m); try (destruct A as (bf & q & af & E' & _); rewrite E in E'; destruct bf; discriminate).
      - destruct (cat_name m) eqn:CE; try congruence;
        destruct A as (bf & q & af & E' & C & _); exists q; (split; [rewrite E'; apply in_or_app; right; left; reflexivity | exact C]). }
    destruct (entry_for _ J) as (n & E & L & _ & S). cbn [fst snd] in *. subst q. apply (field_candidate p k rest n V) in C. subst n.
    rewrite L in Co. split.
    + destruct (rl_rules rl) as [|r rs]; [congruence|]. exists r. apply S. left. reflexivity.
    + intros r K. apply (St r (rl_cascaded rl) false K). apply Co, S, K.
  - intros [[r J] H]. destruct (proj2 (proj2 T) _ _ J) as [rl K]. destruct (entry_for _ K) as (n & E & L & NE & S). cbn [fst snd] in *.
    apply from_tokens_inj in E. injection E as <-.
    exists rl. split; [|split; [exact NE | rewrite L; intros r0 K0; apply (St r0 false (rl_cascaded rl)); [apply S, K0 | apply H, S, K0]]].
    assert (cat_name m <> CBody) as Nn by (destruct CN as [X|X]; [rewrite X in K; destruct K | exact X]).
    assert (first_for m p rl) as F.
    { apply in_split in K as (bf & af & E). exists bf, (from_tokens [TRoot; TField k]), af. split; [exact E|]. split; [apply (field_candidate p k rest k V); reflexivity|].
      intros e Ie C. assert (In e (cat_rules m)) as Je by (rewrite E; apply in_or_app; left; exact Ie).
      destruct (entry_for e Je) as (n & Ee & _). rewrite Ee in C. apply (field_candidate p k rest n V) in C. subst n.
      destruct T as [ND _]. rewrite E, map_app in ND. cbn [map fst] in ND. apply NoDup_remove_2 in ND. apply ND, in_or_app. left.
      rewrite <- Ee. apply in_map, Ie. }
    destruct (cat_name m); try exact F. congruence.
Qed.
End Named.

(** ** Query parameters *)
Section Values.
Variable w : world.
Lemma param_rules : forall h k r, In ([TField k], r) (named_rel (query_calls h)) <-> exists p, In p (params h k) /\ In r (s_rules p).
Proof.
  intros h k r. rewrite in_named_rel. unfold query_calls, params. split.
  - intros (n & v & J & E & K). injection E as <-. exists v. split; [|exact K]. apply in_flat_map in J as (c & J & J'). apply in_flat_map. exists c. split; [exact J|].
    destruct c; try contradiction. destruct J' as [E|[]]. injection E as -> ->. rewrite str_eqb_refl. left. reflexivity.
  - intros (v & J & K). exists k, v. split; [|split; [reflexivity | exact K]]. apply in_flat_map in J as (c & J & J'). apply in_flat_map. exists c. split; [exact J|].
    destruct c as [| | |n v0|]; try contradiction. destruct (str_eqb_spec n k) as [->|]; [|contradiction]. destruct J' as [->|[]]. left. reflexivity.
Qed.
Lemma some_rule_iff : forall ps, some_rule ps <-> exists r p, In p ps /\ In r (s_rules p).
Proof.
  intros ps. unfold some_rule. split.
  - intros (p & J & H). apply has_rule_iff in H. destruct (s_rules p) as [|r rs] eqn:E; [congruence|]. exists r, p. rewrite E. split; [exact J | left; reflexivity].
  - intros (r & p & J & K). exists p. split; [exact J|]. apply has_rule_iff. intro E. rewrite E in K. destruct K.
Qed.
Lemma all_ask_iff : forall ps y e b, all_ask w ps y <-> forall r, (exists p, In p ps /\ In r (s_rules p)) -> xtext_satisfies w r b e y.
Proof.
  intros ps y e b. unfold all_ask. split.
  - intros H r (p & J & K). apply (proj1 (asks_iff w p y e b) (H p J) r K).
  - intros H p J. apply (proj2 (asks_iff w p y e b)). intros r K. apply H. exists p. auto.
Qed.
Lemma simple_stable : forall r b b' e e' y, simple r -> xtext_satisfies w r b e y <-> xtext_satisfies w r b' e' y.
Proof. intros r b b' e e' y S. destruct r; try contradiction; reflexivity. Qed.
Lemma some_rule_dec : forall ps, some_rule ps \/ ~ some_rule ps.
Proof.
  induction ps as [|p ps [IH|IH]].
  - right. intros (p & [] & _).
  - left. destruct IH as (q & J & H). exists q. split; [right; exact J | exact H].
  - destruct p as [s|q|re ex|f ex]; try (left; eexists; split; [left; reflexivity | exact I]; fail).
    right. intros (q & [<-|J] & H); [exact H | apply IH; exists q; auto].
Qed.
Lemma s_rules_list : forall p r b e a, In r (s_rules p) -> list_satisfies r b e a.
Proof. induction p as [s|q IH|re ex|f ex]; cbn [s_rules]; intros r b e a J; [destruct J| | |]; (destruct J as [<-|J]; [exact I|]); [exact (IH r b e a J) | destruct J | destruct J]. Qed.
(** [e] are the expected values; there is at least one. *)
Lemma values_iff : forall m R k ps e a, (cat_rules m <> [] -> cat_name m <> CBody) -> tidy (cat_rules m) R ->
  (forall t r, In (t, r) R -> exists n, t = [TField n]) ->
  (forall r, In ([TField k], r) R <-> exists p, In p ps /\ In r (s_rules p)) ->
  canonical_key k -> ps <> [] -> e = map s_example ps ->
  (param_ok w m k e a <-> values_accepted w ps a).
Proof.
  intros m R k ps e a NB T FL RR CK NE Ee. unfold param_ok, values_accepted. cbv zeta.
  assert (to_vec (join path_root k) = S_ "$" :: k :: []) as V by (rewrite to_vec_join, (display_canonical k CK); reflexivity).
  assert (forall i, to_vec (item (join path_root k) i) = S_ "$" :: k :: [token_display (part_token (show_N (N.of_nat i)))]) as V1.
  { intro i. unfold item. rewrite to_vec_join, V. reflexivity. }
  assert (forall i, exists rest, to_vec (item (item (join path_root k) i) 0) = S_ "$" :: k :: rest) as V2.
  { intro i. unfold item at 1. rewrite to_vec_join, V1. eexists. reflexivity. }
  assert (e <> []) as NEe by (rewrite Ee; destruct ps; [congruence | discriminate]).
  assert (simple_R : forall r, In ([TField k], r) R -> simple r).
  { intros r J. apply RR in J as (p & _ & K). exact (s_rules_simple p r K). }
  assert (TX : forall p rest y x0, to_vec p = S_ "$" :: k :: rest -> (exists r, In ([TField k], r) R) -> (text_ok w m p x0 y <-> all_ask w ps y)).
  { intros p rest y x0 Vp Ex. unfold text_ok, decided. rewrite (by_named m R NB T FL p k rest _ Vp).
    - rewrite (none_named m R T FL p k rest Vp). rewrite (all_ask_iff ps y x0 false). split.
      + intros [[No _]|[_ H]]; [destruct Ex as [r J]; destruct (No r J)|]. intros r J. apply H, RR, J.
      + intro H. right. split; [exact Ex|]. intros r J. apply H, RR, J.
    - intros r b b' J. apply simple_stable, simple_R, J. }
  rewrite (none_named m R T FL _ k [] V). rewrite (by_named m R NB T FL _ k [] _ V).
  2:{ intros r b b' J. pose proof (simple_R r J) as Sr. apply RR in J as (q & _ & K). unfold list_rule.
      pose proof (s_rules_list q r b e a K) as L1. pose proof (s_rules_list q r b' e a K) as L2. destruct r; try contradiction; tauto. }
  destruct (some_rule_dec ps) as [S|S].
  - assert (exists r, In ([TField k], r) R) as Ex. { apply some_rule_iff in S as (r & p & J). exists r. apply RR. exists p. exact J. }
    assert (forall r, In ([TField k], r) R ->
      (list_rule (fun m q x0 y => text_ok w m (item q 0) x0 y) (fun m => m) m (join path_root k) r false e a <-> forall y, In y a -> all_ask w ps y)) as LR.
    { intros r J. unfold list_rule. assert ((list_satisfies r false e a /\ items_ok (fun m q x0 y => text_ok w m (item q 0) x0 y) m (join path_root k) e a) <->
        (forall y, In y a -> all_ask w ps y)) as X.
      { assert (list_satisfies r false e a) as LS by (apply RR in J as (p & _ & K); exact (s_rules_list p r false e a K)).
        unfold items_ok. split.
        - intros (_ & H & _) y Jy. apply In_nth_error in Jy as [i Ei].
          assert (exists x0, expected_at e i x0) as [x0 X0].
          { unfold expected_at. destruct (nth_error e i) as [z|] eqn:N; [exists z; left; reflexivity|]. destruct e as [|z e']; [congruence|]. exists z. right. split; [reflexivity|]. exists e'. reflexivity. }
          specialize (H i x0 y X0 Ei). destruct (V2 i) as [rest Vr]. apply (TX _ rest y x0 Vr Ex) in H. exact H.
        - intro H. split; [exact LS|]. split.
          + intros i x0 y _ Ei. destruct (V2 i) as [rest Vr]. apply (TX _ rest y x0 Vr Ex). apply H. exact (nth_error_In _ _ Ei).
          + intros i _ No. destruct Ex as [r0 J0]. exact (proj1 (none_named m R T FL _ k _ (V1 i)) No r0 J0). }
      apply simple_R in J. destruct r; try contradiction; (split; [intros [Z|Z]; [congruence | apply X; exact Z] | intro Z; right; apply X; exact Z]). }
    split.
    + intros [[_ H]|[No _]]; [|destruct Ex as [r J]; destruct (No r J)]. left. split; [exact S|]. destruct Ex as [r J]. apply (LR r J), H, J.
    + intros [[_ H]|[No _]]; [|contradiction]. left. split; [exact Ex|]. intros r J. apply (LR r J), H.
  - assert (forall r, ~ In ([TField k], r) R) as No. { intros r J. apply RR in J as (p & J & K). apply S, some_rule_iff. exists r, p. auto. }
    assert (TE : forall p rest x0 y, to_vec p = S_ "$" :: k :: rest -> (text_ok w m p x0 y <-> x0 = y)).
    { intros p rest x0 y Vp. unfold text_ok, decided. rewrite (none_named m R T FL p k rest Vp), (by_named m R NB T FL p k rest _ Vp).
      - cbn [xtext_satisfies text_satisfies]. split; [intros [[_ H]|[[r J] _]]; [exact H | destruct (No r J)] | intro H; left; split; [exact No | exact H]].
      - intros r b b' J. destruct (No r J). }
    split.
    + intros [[[r J] _]|(_ & L & H)]; [destruct (No r J)|]. right. split; [exact S|]. rewrite <- Ee. symmetry. apply nth_ext with (d := []) (d' := []); [exact L|].
      intros i Li. specialize (H i (nth i e []) (nth i a [])). apply (TE _ _ _ _ (V1 i)). apply H; apply nth_error_nth'; [exact Li | rewrite <- L; exact Li].
    + intros [[Z _]|[_ H]]; [contradiction|]. right. split; [exact No|]. rewrite <- Ee in H. subst a. split; [reflexivity|].
      intros i x0 y E1 E2. apply (TE _ _ _ _ (V1 i)). congruence.
Qed.
End Values.
