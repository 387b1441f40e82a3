(** Properties C21, C22, C35, C42: headers. *)
From Coq Require Import Ascii String List Arith NArith ZArith Lia Bool Sorted Permutation.
From Verif Require CompareProofs.
From Verif Require Import Base PathExp SpecPath PathExpProofs PropPath Json Text TextProofs MatchingRules Matchers JsonCompare
  Headers SpecQuery QueryProofs SpecHeaders HeaderProofs HeaderProofs2.
Import ListNotations.
Open Scope N_scope.
Local Opaque show_N.

Lemma matched_cons : forall A k (l : list A) r, matched ((k, l) :: r) <-> l = [] /\ matched r.
Proof.
  intros A k l r. unfold matched. split.
  - intro H. split; [apply (H k); left; reflexivity | intros k' l' I; apply (H k'); right; exact I].
  - intros [-> H] k' l' [E|I]; [congruence | apply (H k'), I].
Qed.
Lemma matched_maps : forall w E A c, matched (match_headers w (Some E) (Some A) c) <->
  forall k vs, In (k, vs) E -> match_header_entry w A c k vs = [].
Proof.
  intros w E A c. cbn [match_headers]. unfold match_header_maps, matched. split; intro H.
  - intros k vs I. apply (H k). apply in_map_iff. exists (k, vs). split; [reflexivity | exact I].
  - intros k l I. apply in_map_iff in I as [[k' vs] [X I]]. cbn in X. injection X as <- <-. apply H, I.
Qed.

(** ** C21: names and extra headers *)
Theorem C21_names_ignore_case : forall w E E' A A' c,
  recased (to_lower w) E E' -> recased (to_lower w) A A' ->
  (matched (match_headers w (Some E) (Some A) c) <-> matched (match_headers w (Some E') (Some A') c)).
Proof.
  intros w E E' A A' c RE RA.
  assert (forall k k', to_lower w k = to_lower w k' -> find_header w A k = find_header w A' k') as F.
  { intros k k' L. unfold find_header. clear RE. induction RA as [|[n v] [n' v'] A A' [Ln Ev] R IH]; [reflexivity|].
    cbn [fst snd] in *. subst v'. cbn [find fst]. rewrite <- Ln, <- L.
    destruct (str_eqb (to_lower w n) (to_lower w k)); [reflexivity|]. rewrite <- L in IH. exact IH. }
  rewrite !matched_maps. split; intros H.
  - induction RE as [|[k v] [k' v'] E E' [L Ev] R IH]; [intros ? ? []|]. cbn [fst snd] in *. subst v'.
    intros k0 vs0 [X|I].
    + injection X as <- <-. apply kinds_nil. rewrite <- (entry_kinds w A A' c k k' v L (F k k' L)), (H k v (or_introl eq_refl)). reflexivity.
    + apply IH; [intros; apply H; right; assumption | exact I].
  - induction RE as [|[k v] [k' v'] E E' [L Ev] R IH]; [intros ? ? []|]. cbn [fst snd] in *. subst v'.
    intros k0 vs0 [X|I].
    + injection X as <- <-. apply kinds_nil. rewrite (entry_kinds w A A' c k k' v L (F k k' L)), (H k' v (or_introl eq_refl)). reflexivity.
    + apply IH; [intros; apply H; right; assumption | exact I].
Qed.
(** Only the values of the expected headers count: other headers, and the iteration
    order of the maps, do not. *)
Theorem C21_only_expected_headers_count : forall w E E' A A' c,
  unique_names (to_lower w) A -> unique_names (to_lower w) A' -> Permutation E E' ->
  (forall k vs, In (k, vs) E -> forall avs, has_header (to_lower w) A k avs <-> has_header (to_lower w) A' k avs) ->
  (matched (match_headers w (Some E) (Some A) c) <-> matched (match_headers w (Some E') (Some A') c)).
Proof.
  intros w E E' A A' c U U' P S.
  assert (forall k vs, In (k, vs) E -> match_header_entry w A c k vs = match_header_entry w A' c k vs) as M.
  { intros k vs I. assert (find_header w A k = find_header w A' k) as F.
    { destruct (find_header w A k) as [avs|] eqn:F.
      - symmetry. apply find_header_has; [exact U'|]. apply (S k vs I), find_header_in, F.
      - symmetry. apply find_header_none. intros avs Hh. apply (S k vs I) in Hh. exact (proj1 (find_header_none w A k) F avs Hh). }
    unfold match_header_entry. rewrite F. reflexivity. }
  rewrite !matched_maps. split; intros H k vs I.
  - apply (Permutation_in _ (Permutation_sym P)) in I. rewrite <- (M k vs I). apply H, I.
  - rewrite (M k vs I). apply H. exact (Permutation_in _ P I).
Qed.
Theorem C21_extra_headers_are_ignored : forall w E A extra c,
  unique_names (to_lower w) (extra ++ A) ->
  (forall k vs k' vs', In (k, vs) E -> In (k', vs') extra -> to_lower w k' <> to_lower w k) ->
  (matched (match_headers w (Some E) (Some (extra ++ A)) c) <-> matched (match_headers w (Some E) (Some A) c)).
Proof.
  intros w E A extra c U D. apply C21_only_expected_headers_count.
  - exact U.
  - unfold unique_names in *. rewrite map_app in U. clear D. induction extra as [|x extra IH]; [exact U|]. apply IH. inversion U; assumption.
  - apply Permutation_refl.
  - intros k vs I avs. unfold has_header. split; intros [k' [J L]].
    + apply in_app_iff in J as [J|J]; [exfalso; exact (D k vs k' avs I J L) | exists k'; auto].
    + exists k'. rewrite in_app_iff. auto.
Qed.
(** What a match means for headers without rules. *)
Section Agree.
Variable w : world.
Notation sp := (is_space w).
Notation lower := (to_lower w).
Lemma same_text_trim : forall x y, same_text sp x y <-> trim w x = trim w y.
Proof.
  intros x y. split.
  - intros [s [[p [q [-> [Hp Hq]]]] [p' [q' [-> [Hp' Hq']]]]]].
    rewrite (trim_app_left w p), (trim_app_left w p'), (trim_app_right w s q), (trim_app_right w s q') by assumption. reflexivity.
  - intro E. exists (trim w x). split; [exact (trim_split w x)|]. rewrite E. exact (trim_split w y).
Qed.
Lemma blank_trim : forall y, blank sp y <-> trim w y = [].
Proof.
  intro y. split; [apply trim_blank|]. intro E. destruct (trim_split w y) as [p [q [F [Hp Hq]]]]. rewrite E in F. cbn [app] in F.
  unfold blank. rewrite F, forallb_app, Hp, Hq. reflexivity.
Qed.
Lemma reads_not_blank : forall h y, reads_as sp h y -> ~ blank sp y.
Proof.
  intros h y [[NE [_ [U _]]] [m [ts [[p [q [-> [Hp Hq]]]] [_ ->]]]]] B. unfold blank in B.
  rewrite !forallb_app in B. destruct (media h) as [|c r] eqn:M; [congruence|]. destruct U as [U _]. specialize (U c r eq_refl).
  cbn [forallb] in B. rewrite U in B. rewrite andb_false_l, !andb_false_r in B. discriminate.
Qed.
Lemma structured_in : forall k, str_in (lower k) PARAMETERISED_HEADERS = true <-> structured_name lower k.
Proof.
  intro k. unfold str_in, PARAMETERISED_HEADERS, structured_name. cbn [existsb]. rewrite !orb_true_iff, !str_eqb_eq. split; [intros [?|[?|?]]; [tauto|tauto|discriminate] | tauto].
Qed.
Lemma value_ok_agrees : forall k x y,
  (structured_name lower k -> (exists h, reads_as sp h x) /\ (exists h, reads_as sp h y)) ->
  (value_ok w (lower k) x y <-> value_agrees sp lower k x y).
Proof.
  intros k x y WF. unfold value_ok, value_agrees. pose proof (structured_in k) as SI.
  destruct (str_in (lower k) PARAMETERISED_HEADERS).
  - assert (structured_name lower k) as SN by (apply SI; reflexivity). destruct (WF SN) as [[e Re] [a Ra]].
    rewrite (parameter_header w e a x y (proj1 Re) (proj1 Ra) (proj2 Re) (proj2 Ra)). split.
    + intro M. left. split; [exact SN|]. exists e, a. auto.
    + intros [[_ [e' [a' [Re' [Ra' M]]]]]|[N _]]; [|contradiction].
      apply (parameter_header w e a x y (proj1 Re) (proj1 Ra) (proj2 Re) (proj2 Ra)).
      apply (parameter_header w e' a' x y (proj1 Re') (proj1 Ra') (proj2 Re') (proj2 Ra')). exact M.
  - assert (~ structured_name lower k) as SN by (intro Z; apply SI in Z; discriminate). rewrite <- same_text_trim. split.
    + intro M. right. auto.
    + intros [[Z _]|[_ M]]; [contradiction | exact M].
Qed.
Lemma value_ok_blank : forall k y, (structured_name lower k -> exists h, reads_as sp h y) ->
  (value_ok w (lower k) [] y <-> blank sp y).
Proof.
  intros k y WF. unfold value_ok. pose proof (structured_in k) as SI.
  destruct (str_in (lower k) PARAMETERISED_HEADERS).
  - assert (structured_name lower k) as SN by (apply SI; reflexivity). destruct (WF SN) as [h R]. split.
    + intro M. exfalso. unfold match_parameter_header in M. rewrite !strip_trim in M.
      destruct (strip_written w h y (proj1 R) (proj2 R)) as [ps [E _]]. rewrite E in M. cbn [first_and_rest] in M.
      change (strip_parts w []) with (@nil str) in M. cbn [first_and_rest] in M.
      destruct R as [[NE _] _]. destruct (media h); [congruence | discriminate].
    + intro B. exfalso. exact (reads_not_blank h y R B).
  - rewrite blank_trim. change (trim w []) with (@nil N). split; intro E; symmetry; exact E.
Qed.
Lemma forall2_in : forall (P Q : str -> str -> Prop) l m, (forall x y, In x l -> In y m -> (P x y <-> Q x y)) ->
  (Forall2 P l m <-> Forall2 Q l m).
Proof.
  intros P Q l m H. split; intro F; induction F as [|x y l m Hxy F IH]; constructor; try (apply H; [left; reflexivity | left; reflexivity | exact Hxy]);
    apply IH; intros; apply H; right; assumption.
Qed.
Theorem C21_without_rules : forall E A c,
  cat_rules (matchers c) = [] -> unique_names lower A -> readable_headers sp lower E -> readable_headers sp lower A ->
  (matched (match_headers w (Some E) (Some A) c) <-> headers_agree sp lower E A).
Proof.
  intros E A c NR U RE RA. rewrite matched_maps.
  assert (forall k vs, In (k, vs) E -> (match_header_entry w A c k vs = [] <-> exists avs, has_header lower A k avs /\
     values_agree (value_agrees sp lower k) (blank sp) vs avs)) as M.
  { intros k vs I. unfold match_header_entry. destruct (find_header w A k) as [avs|] eqn:F.
    2:{ split; [discriminate|]. intros [avs [Hh _]]. exfalso. exact (proj1 (find_header_none w A k) F avs Hh). }
    pose proof (find_header_in w A k avs F) as Hh.
    assert ((exists avs0, has_header lower A k avs0 /\
       values_agree (value_agrees sp lower k) (blank sp) vs avs0) <-> values_agree (value_agrees sp lower k) (blank sp) vs avs) as X.
    { split; [|intro V; exists avs; auto]. intros [avs0 [Hh0 V]]. rewrite (unique_has w A k avs avs0 U Hh Hh0). exact V. }
    rewrite X. clear X.
    assert (structured_name lower k -> forall y, In y avs -> exists h, reads_as sp h y) as WA.
    { intros SN y J. destruct Hh as [k' [I' L]]. apply (RA k' avs y I'); [|exact J]. unfold structured_name. rewrite L. exact SN. }
    assert (forall x y, In x vs -> In y avs -> (value_ok w (lower k) x y <-> value_agrees sp lower k x y)) as VO.
    { intros x y J K. apply value_ok_agrees. intro SN. split; [exact (RE k vs x I SN J) | exact (WA SN y K)]. }
    assert (forall y, In y avs -> (value_ok w (lower k) [] y <-> blank sp y)) as VB.
    { intros y K. apply value_ok_blank. intro SN. exact (WA SN y K). }
    destruct vs as [|x vs].
    { cbn [nonempty negb andb values_agree]. destruct avs as [|y avs].
      - cbn [nonempty]. rewrite no_rules_defined by exact NR. cbn. split; reflexivity.
      - split; intro Z; discriminate. }
    cbn [nonempty negb andb].
    assert (header_elements w k c 0 (pad_values (x :: vs) (length avs)) avs = [] <->
      values_agree (value_agrees sp lower k) (blank sp) (x :: vs) avs) as G.
    { rewrite (elements_no_rules w k c NR); [|unfold pad_values; rewrite app_length, repeat_length; lia].
      unfold pad_values, values_agree. set (e := x :: vs) in *. split.
      - intro F2. apply Forall2_app_inv_l in F2 as [a1 [a2 [F1 [F2 ->]]]]. exists a1, a2. split; [reflexivity|]. split.
        + apply (forall2_in _ (value_ok w (lower k))); [|exact F1]. intros u v J K. symmetry. apply VO; [exact J | apply in_or_app; auto].
        + assert (forall y, In y a2 -> value_ok w (lower k) [] y <-> blank sp y) as VB2 by (intros; apply VB, in_or_app; auto).
          clear -F2 VB2. remember (repeat [] _) as l eqn:El. revert El. generalize ((length (a1 ++ a2) - length e)%nat). intros n El.
          revert n El. induction F2 as [|z y l a2 V F IH]; intros n El; constructor.
          * destruct n; [discriminate|]. injection El as -> _. apply VB2; [left; reflexivity | exact V].
          * destruct n as [|n]; [discriminate|]. injection El as _ El. apply (IH (fun y J => VB2 y (or_intror J)) n El).
      - intros [a1 [a2 [-> [F1 F2]]]]. apply Forall2_app.
        + apply (forall2_in _ (value_agrees sp lower k)); [|exact F1]. intros u v J K. apply VO; [exact J | apply in_or_app; auto].
        + assert (length a1 = length e) as L by (clear -F1; induction F1; cbn; congruence).
          rewrite app_length, L. replace (length e + length a2 - length e)%nat with (length a2) by lia.
          assert (forall y, In y a2 -> value_ok w (lower k) [] y <-> blank sp y) as VB2 by (intros; apply VB, in_or_app; auto).
          clear -F2 VB2. induction F2; constructor; [apply VB2; [left; reflexivity | assumption] | apply IHF2; intros; apply VB2; right; assumption]. }
    destruct vs as [|x' vs], avs as [|y [|y' avs]]; rewrite ?no_rules_defined by exact NR; try exact G.
    rewrite (value_no_rules w k 0 x y c NR), (VO x y (or_introl eq_refl) (or_introl eq_refl)). cbn [values_agree]. split.
    - intro T. exists [y], []. split; [reflexivity|]. split; [constructor; [exact T | constructor] | constructor].
    - intros [a1 [a2 [Ea [F1 F2]]]]. inversion F1 as [|? y1 ? l1 T F1']; subst. inversion F1'; subst. cbn in Ea. injection Ea as <- _. exact T. }
  split; intros H k vs I; apply (M k vs I); apply H, I.
Qed.
(** Expected headers need an actual set of headers; without expected headers anything matches. *)
Theorem C21_missing_header_maps : forall E A c,
  (matched (match_headers w (Some E) None c) <-> E = []) /\ matched (match_headers w None A c).
Proof.
  intros E A c. split.
  - split; [|intros -> ? ? []]. intro H. destruct E as [|[k v] E]; [reflexivity|]. specialize (H k [mkMM k KAbsent]).
    discriminate H. left. reflexivity.
  - destruct A; intros ? ? [].
Qed.
End Agree.
(** The header map of a rule set with one header rule, as read from a pact file. *)
Definition header_rule (name : str) (rl : rulelist) : context :=
  mkCtx false (mkCat CHeader [(push_field path_root name, rl)]).

Example C21_example : forall w,
  let E := [(S_ "X-Test", [S_ "a"; S_ "b"]); (S_ "Accept", [S_ "text/html; q=1"])] in
  let A := [(S_ "accept", [S_ "text/html;q=1"]); (S_ "Host", [S_ "x"]); (S_ "x-test", [S_ " a"; S_ "b "])] in
  matched (match_headers w (Some E) (Some A) (mkCtx false (mkCat CHeader []))) /\ unique_names (to_lower w) A.
Proof.
  intro w. split.
  - intros k l I. vm_compute in I. repeat destruct I as [I|I]; try (injection I as <- <-; reflexivity). destruct I.
  - unfold unique_names. repeat constructor; vm_compute; intuition discriminate.
Qed.
(** With actual names that differ only in case the verdict depends on the iteration order of the map. *)
Theorem C21_why_names_must_differ : forall w,
  let E := [(S_ "X", [S_ "1"])] in
  let A := [(S_ "x", [S_ "1"]); (S_ "X", [S_ "2"])] in
  let A' := [(S_ "X", [S_ "2"]); (S_ "x", [S_ "1"])] in
  let c := mkCtx false (mkCat CHeader []) in
  Permutation A A' /\ matched (match_headers w (Some E) (Some A) c) /\ ~ matched (match_headers w (Some E) (Some A') c).
Proof.
  intro w. cbv zeta. split; [apply perm_swap|]. split.
  - intros k l I. vm_compute in I. destruct I as [I|[]]. injection I as <- <-. reflexivity.
  - intro H. specialize (H (S_ "X") [mkMM (S_ "X") KNotEqual]). vm_compute in H. discriminate H. left. reflexivity.
Qed.

(** ** C22: structured values *)
Theorem C22_structured_values : forall w A c k te ta e a,
  cat_rules (matchers c) = [] -> unique_names (to_lower w) A ->
  to_lower w k = S_ "accept" \/ to_lower w k = S_ "content-type" ->
  has_header (to_lower w) A k [ta] ->
  structured_ok (is_space w) e -> structured_ok (is_space w) a ->
  written (is_space w) e te -> written (is_space w) a ta ->
  (matched (match_headers w (Some [(k, [te])]) (Some A) c) <-> structured_match e a).
Proof.
  intros w A c k te ta e a NR U K Hh Oe Oa We Wa. rewrite matched_maps.
  assert (match_header_entry w A c k [te] = [] <-> structured_match e a) as M.
  { unfold match_header_entry. rewrite (find_header_has w A k [ta] U Hh). cbn [nonempty negb andb].
    rewrite (value_no_rules w k 0 te ta c NR). unfold value_ok.
    assert (str_in (to_lower w k) PARAMETERISED_HEADERS = true) as ->
      by (destruct K as [-> | ->]; reflexivity).
    apply parameter_header; assumption. }
  split.
  - intro H. apply M, H. left. reflexivity.
  - intros S k' vs [X|[]]. injection X as <- <-. apply M, S.
Qed.
(** The order of the parameters does not matter. *)
Theorem C22_parameter_order : forall e ps a qs,
  Permutation (params e) ps -> NoDup (map fst (params e)) ->
  Permutation (params a) qs -> NoDup (map fst (params a)) ->
  (structured_match e a <-> structured_match (mkStructured (media e) ps) (mkStructured (media a) qs)).
Proof.
  assert (forall l n v, NoDup (map fst l) -> param n l = Some v <-> In (n, v) l) as PI.
  { induction l as [|[n' v'] l IH]; intros n v ND; [split; [discriminate | intros []]|].
    inversion ND as [|? ? NI ND']; subst. cbn [param]. split.
    - destruct (param n l) as [x|] eqn:P; [intro E; injection E as ->; right; apply (IH n v ND'), P|].
      destruct (str_eqb_spec n n') as [->|N]; [intro E; injection E as ->; left; reflexivity | discriminate].
    - intros [E|I].
      + injection E as -> ->. destruct (param n l) as [x|] eqn:P.
        * apply (IH n x ND') in P. exfalso. apply NI. apply in_map_iff. exists (n, x). auto.
        * rewrite str_eqb_refl. reflexivity.
      + apply (IH n v ND') in I. rewrite I. reflexivity. }
  assert (forall l l' n, Permutation l l' -> NoDup (map fst l) -> param n l = param n l') as PP.
  { intros l l' n P ND. assert (NoDup (map fst l')) as ND' by (eapply Permutation_NoDup; [apply Permutation_map, P | exact ND]).
    destruct (param n l) as [v|] eqn:E.
    - symmetry. apply PI; [exact ND'|]. apply (Permutation_in _ P), PI; assumption.
    - destruct (param n l') as [v|] eqn:E'; [|reflexivity]. apply PI in E'; [|exact ND'].
      apply (Permutation_in _ (Permutation_sym P)) in E'. apply (PI l n v ND) in E'. congruence. }
  intros e ps a qs Pe Ne Pa Na. unfold structured_match. cbn [media params]. split; intros [M H]; split; auto; intros n v P.
  - rewrite <- (PP _ _ n Pe Ne) in P. destruct (H n v P) as [v' [Q L]]. exists v'. rewrite <- (PP _ _ n Pa Na). auto.
  - rewrite (PP _ _ n Pe Ne) in P. destruct (H n v P) as [v' [Q L]]. exists v'. rewrite (PP _ _ n Pa Na). auto.
Qed.
Example C22_example : forall w,
  let h := mkStructured (S_ "application/json") [(S_ "charset", S_ "UTF-8"); (S_ "v", S_ "1")] in
  let g := mkStructured (S_ "application/json") [(S_ "v", S_ "1"); (S_ "charset", S_ "utf-8"); (S_ "x", S_ "y")] in
  structured_ok (is_space w) h /\ written (is_space w) h (S_ "application/json ;charset = UTF-8;; v=1") /\ structured_match h g.
Proof.
  intro w. cbv zeta. split; [|split].
  - unfold structured_ok. cbn [media params]. split; [discriminate|]. split; [vm_compute; intuition lia|].
    split; [apply unpadded_check; reflexivity|]. intros n v [E|[E|[]]]; injection E as <- <-;
    (split; [vm_compute; intuition lia|]; split; [vm_compute; intuition lia|]; split; [vm_compute; intuition lia|];
     split; apply unpadded_check; reflexivity).
  - exists (S_ "application/json "), [S_ "charset = UTF-8"; []; S_ " v=1"]. split; [|split].
    + exists [], (S_ " "). repeat split.
    + apply pt_param.
      * exists (S_ "charset "), (S_ " UTF-8"). split; [exists [], (S_ " "); repeat split|]. split; [exists (S_ " "), []; repeat split | reflexivity].
      * apply pt_blank; [reflexivity|]. apply pt_param; [|constructor].
        exists (S_ " v"), (S_ "1"). split; [exists (S_ " "), []; repeat split|]. split; [exists [], []; repeat split | reflexivity].
    + reflexivity.
  - split; [reflexivity|]. intros n v P. cbn [params param] in *.
    destruct (str_eqb_spec n (S_ "v")) as [->|N1].
    + injection P as <-. exists (S_ "1"). split; reflexivity.
    + destruct (str_eqb_spec n (S_ "charset")) as [->|N2]; [|discriminate]. injection P as <-. exists (S_ "utf-8"). split; reflexivity.
Qed.
(** "Equal as a set" fails: parameters the expected value does not have are ignored. *)
Theorem C22_extra_parameters_are_accepted : forall w,
  let e := mkStructured (S_ "text/html") [] in
  let a := mkStructured (S_ "text/html") [(S_ "q", S_ "0")] in
  ~ (forall n, param n (params e) = param n (params a)) /\
  matched (match_headers w (Some [(S_ "Accept", [S_ "text/html"])]) (Some [(S_ "Accept", [S_ "text/html;q=0"])]) (mkCtx false (mkCat CHeader []))).
Proof.
  intro w. cbv zeta. split.
  - intro H. specialize (H (S_ "q")). vm_compute in H. discriminate.
  - intros k l I. vm_compute in I. destruct I as [I|[]]. injection I as <- <-. reflexivity.
Qed.

(** ** C35: headers in the pact file *)
(** The values that survive: a known single value header has exactly one value; any
    other header has at least one and none contains a comma; no surrounding white space. *)
Definition header_writable (w : world) (k : str) (vs : list str) : Prop :=
  Forall (fun v => unpadded (is_space w) v) vs /\
  (if str_in (to_lower w k) SINGLE_VALUE_HEADERS then exists v, vs = [v]
   else vs <> [] /\ Forall (fun v => ~ In 44 v) vs).
(** Reading: text is split at the commas unless the header holds one value. *)
Theorem C35_commas : forall w k text,
  (In (to_lower w k) one_value_names -> header_values w k (JStr text) = [trim w text]) /\
  (~ In (to_lower w k) one_value_names -> forall vs, vs <> [] -> Forall (fun v => ~ In 44 v) vs ->
     text = join_with [44] vs -> header_values w k (JStr text) = map (trim w) vs).
Proof.
  intros w k text. cbn [header_values]. unfold parse_header.
  assert (str_in (to_lower w k) SINGLE_VALUE_HEADERS = true <-> In (to_lower w k) one_value_names) as I by apply (CompareProofs.str_in_iff).
  destruct (str_in (to_lower w k) SINGLE_VALUE_HEADERS); split; intro H.
  - reflexivity.
  - exfalso. apply H, I. reflexivity.
  - apply I in H. discriminate.
  - intros vs NE NC ->. f_equal. apply split_join; assumption.
Qed.
Lemma split_length : forall c s, In c s -> (2 <= length (split_on c s))%nat.
Proof.
  intros c s I. apply in_split in I as (a & b & ->). induction a as [|x a IH].
  - cbn [app split_on]. rewrite N.eqb_refl. cbn [length]. pose proof (split_on_nonempty c b). destruct (split_on c b); [congruence|cbn; lia].
  - cbn [app split_on]. destruct (x =? c); [cbn [length]; lia|]. destruct (split_on c (a ++ c :: b)) as [|p ps]; [cbn in IH; lia|]. exact IH.
Qed.
Lemma split_app_length : forall c s t, (length (split_on c (s ++ t)) + 1 = length (split_on c s) + length (split_on c t))%nat.
Proof.
  intros c s t. induction s as [|x s IH]; [cbn; lia|]. cbn [app split_on]. destruct (x =? c); [cbn [length]; lia|].
  pose proof (split_on_nonempty c (s ++ t)). pose proof (split_on_nonempty c s).
  destruct (split_on c (s ++ t)); [congruence|]. destruct (split_on c s); [congruence|]. exact IH.
Qed.
Lemma join_split_length : forall vs, (length vs <= length (split_on 44 (join_with (S_ ", ") vs)))%nat /\
  (Exists (fun v => In 44 v) vs -> (length vs < length (split_on 44 (join_with (S_ ", ") vs)))%nat).
Proof.
  induction vs as [|v vs [IH1 IH2]]; [split; [cbn; lia|intro E; inversion E]|].
  pose proof (split_on_nonempty 44 v) as Nv.
  assert (L1 : (1 <= length (split_on 44 v))%nat) by (destruct (split_on 44 v); [congruence|cbn; lia]).
  destruct vs as [|v' vs].
  - cbn [join_with length]. split; [exact L1|]. intro E. inversion E as [? ? X|? ? X]; subst; [apply split_length, X|inversion X].
  - change (join_with (S_ ", ") (v :: v' :: vs)) with (v ++ S_ ", " ++ join_with (S_ ", ") (v' :: vs)).
    pose proof (split_app_length 44 v (S_ ", " ++ join_with (S_ ", ") (v' :: vs))) as A1.
    pose proof (split_app_length 44 (S_ ", ") (join_with (S_ ", ") (v' :: vs))) as A2.
    change (length (split_on 44 (S_ ", "))) with 2%nat in A2. cbn [length] in *. split; [lia|].
    intro E. inversion E as [? ? X|? ? X]; subst; [apply split_length in X; lia|specialize (IH2 X); lia].
Qed.
Lemma trim_unpadded : forall w s, unpadded (is_space w) (trim w s).
Proof.
  intros w s. assert (trimmed w (trim w s)) as T by apply trim_trim. apply trimmed_iff in T. unfold no_space_ends in T. split.
  - intros x r E. rewrite E in T. apply T.
  - intros y r E. destruct (trim w s) as [|x t] eqn:Es; [destruct r; discriminate|]. destruct T as [_ T].
    rewrite E, rev_app_distr in T. exact T.
Qed.
Theorem C35_headers_come_back_exactly_when : forall w m, NoDup (map fst m) ->
  ((exists m', headers_from_json w (JObj [(S_ "headers", headers_to_json m)]) = Some m' /\ same_map m' m) <->
   (forall k vs, In (k, vs) m -> header_writable w k vs)).
Proof.
  intros w m ND.
  assert (G : forall m', headers_from_json w (JObj [(S_ "headers", headers_to_json m)]) = Some m' ->
            forall k, entry k m' = match obj_get k m with Some vs => Some (parse_header w k (join_with (S_ ", ") vs)) | None => None end).
  { assert (exists m', headers_from_json w (JObj [(S_ "headers", headers_to_json m)]) = Some m' /\
      forall k, entry k m' = match obj_get k m with Some vs => Some (parse_header w k (join_with (S_ ", ") vs)) | None => None end) as (m0 & E0 & H0).
    { unfold headers_from_json, headers_to_json. cbn [json_get obj_get]. rewrite str_eqb_refl.
      eexists. split; [reflexivity|]. intro k. rewrite entry_get.
      rewrite (obj_get_mapk json (list str) (header_values w)).
      rewrite (fold_insert_get_all _ _ (fun vs => JStr (join_with (S_ ", ") vs)) m [] k ND). destruct (obj_get k m); reflexivity. }
    intros m' H k. rewrite E0 in H. injection H as <-. apply H0. }
  split.
  - intros (m' & R & Sm) k vs I. specialize (G m' R k). rewrite Sm in G. rewrite entry_get in G.
    rewrite (obj_get_nodup _ _ _ _ ND I) in G. injection G as G. unfold parse_header in G. unfold header_writable.
    destruct (str_in (to_lower w k) SINGLE_VALUE_HEADERS).
    + rewrite G. split; [repeat constructor; apply trim_unpadded|eauto].
    + split; [rewrite G; apply Forall_forall; intros v Iv; apply in_map_iff in Iv as (u & <- & _); apply trim_unpadded|]. split.
      * intros ->. discriminate G.
      * apply Forall_forall. intros v Iv C. assert (Exists (fun v => In 44 v) vs) as E by (apply Exists_exists; eauto).
        apply join_split_length in E. apply (f_equal (@length str)) in G. rewrite map_length in G. apply (Nat.lt_irrefl (length vs)). exact (eq_ind_r (fun n => (length vs < n)%nat) E G).
  - intros OK. destruct (headers_from_json w (JObj [(S_ "headers", headers_to_json m)])) as [m'|] eqn:R; [|discriminate].
    exists m'. split; [reflexivity|]. intro k. rewrite (G m' eq_refl k). transitivity (obj_get k m); [|symmetry; apply entry_get].
    destruct (obj_get k m) as [vs|] eqn:Gk; [|reflexivity]. f_equal. destruct (OK k vs (obj_get_in _ _ _ _ Gk)) as [T S].
    unfold parse_header. destruct (str_in (to_lower w k) SINGLE_VALUE_HEADERS).
    + destruct S as [v ->]. cbn [join_with]. inversion T; subst. f_equal. apply (unpadded_trimmed w). assumption.
    + destruct S as [NE C]. apply join_comma_split; [exact NE|]. rewrite Forall_forall in *. intros v I. split; [apply (unpadded_trimmed w), T, I | apply C, I].
Qed.
Example C35_example : forall w, exists m',
  headers_from_json w (JObj [(S_ "headers", headers_to_json [(S_ "Vary", [S_ "a"; S_ "b c"]); (S_ "Date", [S_ "Mon, 01"])])]) = Some m' /\
  same_map m' [(S_ "Vary", [S_ "a"; S_ "b c"]); (S_ "Date", [S_ "Mon, 01"])].
Proof.
  intro w. eexists. split; [vm_compute; reflexivity|]. intro k. cbn [entry].
  change [86; 97; 114; 121] with (S_ "Vary"). change [68; 97; 116; 101] with (S_ "Date").
  destruct (str_eqb_spec k (S_ "Date")) as [->|N1]; [reflexivity|]. reflexivity.
Qed.
(** Outside that class values are lost. *)
Theorem C35_why_no_comma : forall w,
  headers_from_json w (JObj [(S_ "headers", headers_to_json [(S_ "X", [S_ "a,b"])])]) = Some [(S_ "X", [S_ "a"; S_ "b"])].
Proof. intro w. vm_compute. reflexivity. Qed.
Theorem C35_why_one_value : forall w,
  headers_from_json w (JObj [(S_ "headers", headers_to_json [(S_ "Set-Cookie", [S_ "a=1"; S_ "b=2"])])])
  = Some [(S_ "Set-Cookie", [S_ "a=1, b=2"])].
Proof. intro w. vm_compute. reflexivity. Qed.
