(** C102: exactly the requests the V2 engine accepts, for expected requests without matching rules. *)
From Coq Require Import Ascii String List Arith NArith ZArith Lia Bool Permutation.
From Verif Require PropPattern3 PropHttp3.
From Verif Require Import Base PathExp Json Text TextProofs MatchingRules Matchers JsonCompare Headers HeaderProofs2 Query ContentType Http Base64 Engine EnginePlan EngineProofs SpecHeaders SpecEngine EngineJson EngineJudge EngineParts EngineRequest EngineRules EngineHeaders EngineBody EngineWhole.
Import ListNotations.
Open Scope N_scope.

(** For every expected request without rules and every actual request (under the conditions on names and
    values of [query_fits], [headers_fit] and [body_fits]) matching ends, and
    - there is no method mismatch exactly when the methods agree ignoring case,
    - no path mismatch exactly when the paths are equal,
    - no query mismatch exactly when [query_accepts],
    - no header mismatch exactly when [headers_accept],
    - the body matches exactly when [body_accepts],
    - and the request matches exactly when all of these hold. *)
Theorem C102_accepted_requests : forall w x ee e a,
  req_rules e = [] ->
  query_fits (req_query e) (req_query a) ->
  headers_fit (to_lower w) (is_space w) (req_headers e) (req_headers a) ->
  body_fits (expected_type w x e) (json_of_bytes x) (fun v => utf8 (json_show w v)) (req_body e) (req_body a) ->
  decided w x ee e a
    (to_upper w (req_method e) = to_upper w (req_method a))
    (req_path e = req_path a)
    (query_accepts (req_query e) (req_query a))
    (headers_accept (to_lower w) (is_space w) (req_headers e) (req_headers a))
    (body_accepts (expected_type w x e)
       (exists ct, content_type_of w x (req_part a) = Some ct /\ ct_show ct = ct_show (expected_type w x e))
       (json_of_bytes x) (utf8_lossy ee) (req_body e) (req_body a)).
Proof.
  intros w x ee e a Hr Hq Hh Hb. pose proof (no_rules_defined CQuery) as NQ. pose proof (no_rules_defined CHeader) as NH.
  assert (HD : decided w x ee e a (to_upper w (req_method e) = to_upper w (req_method a)) (req_path e = req_path a)
    (query_accepts_by (query_acc w (ctx_for false CQuery [])) (req_query e) (req_query a))
    (headers_accept_by (to_lower w) (header_acc w (ctx_for false CHeader [])) (req_headers e) (req_headers a))
    (body_accepts (expected_type w x e)
       (exists ct, content_type_of w x (req_part a) = Some ct /\ ct_show ct = ct_show (expected_type w x e))
       (json_of_bytes x) (utf8_lossy ee) (req_body e) (req_body a))).
  { pose proof (request_decided w x ee e a (req_path e = req_path a)) as G. rewrite Hr in G. apply G; try assumption.
    - reflexivity.
    - apply (path_part w x ee a e (ctx_for false CPath []) (no_rules_defined CPath)).
    - intros k rs r _ H. unfold selected_rules in H. rewrite NQ in H. discriminate H.
    - intros k rs r _ H. unfold selected_rules in H. rewrite NH in H. discriminate H.
    - destruct Hh as [H1 [H2 H3]]. split; [exact H1|]. split; [exact H2|]. intros k vs Hk. destruct (H3 k vs Hk) as [G1 [G2 G3]]. split; [exact G1|]. split; [exact G2|]. intros Hs _. exact (G3 Hs I). }
  assert (EQ : query_accepts_by (query_acc w (ctx_for false CQuery [])) (req_query e) (req_query a) <-> query_accepts (req_query e) (req_query a)).
  { unfold query_accepts, query_accepts_by. destruct (or_else_nil (req_query e)) as [|kv es]; [reflexivity|].
    assert (HA : forall k vs us, query_acc w (ctx_for false CQuery []) k vs us <-> values_accept vs us) by (intros; unfold query_acc, accepts_with, selected_rules; rewrite NQ; reflexivity).
    split; intros [G1 G2]; (split; [exact G1|]); intros k vs us H1 H2; apply (HA k); exact (G2 k vs us H1 H2). }
  assert (EH : headers_accept_by (to_lower w) (header_acc w (ctx_for false CHeader [])) (req_headers e) (req_headers a) <-> headers_accept (to_lower w) (is_space w) (req_headers e) (req_headers a)).
  { unfold headers_accept, headers_accept_by.
    assert (HA : forall k vs us, header_acc w (ctx_for false CHeader []) k vs us <-> header_value_accepts (to_lower w) (is_space w) k vs us) by (intros; unfold header_acc, accepts_with, selected_rules; rewrite NH; reflexivity).
    split; intros G k vs Hk; destruct (G k vs Hk) as [G1 G2]; (split; [exact G1|]); intros k' us H1 H2; apply (HA k); exact (G2 k' us H1 H2). }
  destruct HD as [k [st [r [H1 [H2 [H3 [H4 [H5 [H6 H7]]]]]]]]]. exists k, st, r. rewrite <- EQ, <- EH. repeat (split; [assumption|]). exact H7.
Qed.

(** The content types in that statement. A request is untyped when it has neither a body nor a content-type header that can be
    parsed; the type of an actual request is the one of C52, and an untyped expected request counts as text. *)
Definition untyped (w : world) (x : externals) (p : part) : Prop :=
  (part_body p = BMissing \/ part_body p = BEmpty \/ part_body p = BNull) /\
  (forall v, lookup_header_value w (part_headers p) (S_ "content-type") = Some v -> parse_mime x v = None).
Lemma typed_or_not : forall w x p, match content_type_of w x p with
  | Some ct => PropHttp3.has_content_type w x p ct /\ ~ untyped w x p
  | None => untyped w x p end.
Proof.
  intros w x p. unfold content_type_of, untyped. destruct (body_content_type (part_body p)) as [c|] eqn:B.
  - destruct (part_body p) as [| | |bytes o h] eqn:E; cbn in B; try discriminate. subst o. split; [eapply PropHttp3.hct_body, E|]. intros [[X|[X|X]] _]; discriminate X.
  - assert (D : forall o, (forall v, lookup_header_value w (part_headers p) (S_ "content-type") = Some v -> parse_mime x v = None) -> o = detect_content_type x (part_body p) ->
      match o with Some ct => PropHttp3.has_content_type w x p ct /\ ~ untyped w x p | None => untyped w x p end).
    { intros o NV ->. unfold untyped. destruct (part_body p) as [| | |bytes o h] eqn:E; cbn [detect_content_type]; try (split; [tauto|exact NV]).
      cbn in B. subst o. split; [eapply PropHttp3.hct_detected; [exact E|exact NV]|]. intros [[X|[X|X]] _]; discriminate X. }
    destruct (lookup_header_value w (part_headers p) (S_ "content-type")) as [v|] eqn:L.
    + destruct (parse_mime x v) as [c|] eqn:Pm.
      * split; [eapply PropHttp3.hct_header; eassumption|]. intros [_ X]. specialize (X v eq_refl). rewrite Pm in X. discriminate X.
      * assert (X : forall v', Some v = Some v' -> parse_mime x v' = None) by (intros v' L'; injection L' as <-; exact Pm).
        specialize (D (detect_content_type x (part_body p)) X eq_refl). unfold untyped in D. rewrite L in D. exact D.
    + specialize (D (detect_content_type x (part_body p)) ltac:(discriminate) eq_refl). unfold untyped in D. rewrite L in D. exact D.
Qed.
Theorem C102_types_used : forall w x,
  (forall a ct, content_type_of w x (req_part a) = Some ct <-> PropHttp3.has_content_type w x (req_part a) ct /\ ~ untyped w x (req_part a)) /\
  (forall e, ~ untyped w x (req_part e) -> PropHttp3.has_content_type w x (req_part e) (expected_type w x e)) /\
  (forall e, untyped w x (req_part e) -> expected_type w x e = mkCT (S_ "text") (S_ "plain") [] None).
Proof.
  intros w x. split; [|split].
  - intros a ct. pose proof (typed_or_not w x (req_part a)) as A. destruct (content_type_of w x (req_part a)) as [c|].
    + split; [intro E; injection E as <-; exact A|]. intros [H _]. destruct A as [A _]. apply PropHttp3.C52_content_type_of_a_part in A, H. congruence.
    + split; [discriminate|]. intros [_ N]. destruct (N A).
  - intros e N. pose proof (typed_or_not w x (req_part e)) as A. unfold expected_type. destruct (content_type_of w x (req_part e)) as [c|]; [exact (proj1 A)|destruct (N A)].
  - intros e U. pose proof (typed_or_not w x (req_part e)) as A. unfold expected_type. destruct (content_type_of w x (req_part e)) as [c|]; [destruct (proj2 A U)|reflexivity].
Qed.

(** * Consequences *)
(** A body of another content type is accepted, whatever it is, although a failed comparison of the types
    is meant to be reported as a body type error. *)
Theorem C102_other_type_accepted : forall w x ee e a bs ct h,
  req_rules e = [] -> query_fits (req_query e) (req_query a) ->
  headers_fit (to_lower w) (is_space w) (req_headers e) (req_headers a) ->
  body_fits (expected_type w x e) (json_of_bytes x) (fun v => utf8 (json_show w v)) (req_body e) (req_body a) ->
  req_body e = BPresent bs ct h ->
  (forall ct', content_type_of w x (req_part a) = Some ct' -> ct_show ct' <> ct_show (expected_type w x e)) ->
  exists N st r, (forall f, (N <= f)%nat -> match_request_v2 w x ee f e a = Runs st r) /\ v2_body_matched (v2_body_result r) = true.
Proof.
  intros w x ee e a bs ct h Hr Hq Hh Hb He Ht.
  destruct (C102_accepted_requests w x ee e a Hr Hq Hh Hb) as [k [st [r [H1 [_ [_ [_ [_ [H2 _]]]]]]]]].
  exists k, st, r. split; [exact H1|]. apply H2. rewrite He. intros [ct' [E1 E2]]. exfalso. exact (Ht ct' E1 E2).
Qed.
(** An item of an expected array that is an array or an object stands for any item. *)
Theorem C102_nested_items_unchecked : forall v u, ~ leaf_value v -> json_accepts (JArr [v]) (JArr [u]).
Proof.
  intros v u H. constructor; [reflexivity|]. intros [|[|i]] v' u' E; try discriminate E. injection E as <-. intros _ H'. contradiction.
Qed.
(** Otherwise only equal documents are accepted: without arrays inside arrays and objects inside arrays,
    in both documents, acceptance is equality of the documents. *)
Inductive flat_arrays : json -> Prop :=
| fa_leaf v : leaf_value v -> flat_arrays v
| fa_array l : Forall leaf_value l -> flat_arrays (JArr l)
| fa_object m : (forall k v, In (k, v) m -> flat_arrays v) -> flat_arrays (JObj m).
Lemma sorted_same (a b : list str) : Sorted.StronglySorted str_lt a -> Sorted.StronglySorted str_lt b -> (forall k, In k a <-> In k b) -> a = b.
Proof.
  intros Ha Hb H. assert (HK : forall l : list str, keys (map (fun k => (k, tt)) l) = l) by (intro l; unfold keys; rewrite map_map; apply map_id).
  assert (E : map (fun k => (k, tt)) a = map (fun k => (k, tt)) b).
  { apply sorted_ext; [now rewrite HK | now rewrite HK|]. intro k.
    assert (G : forall l, (In k l -> obj_get k (map (fun k => (k, tt)) l) = Some tt) /\ (~ In k l -> obj_get k (map (fun k => (k, tt)) l) = None)).
    { clear. induction l as [|k' l [I1 I2]]; [split; [intros [] | reflexivity]|]. cbn [map obj_get]. destruct (str_eqb_spec k k') as [->|Hn]; split; intro H; try reflexivity.
      - exfalso. apply H. now left.
      - apply I1. destruct H; [congruence | assumption].
      - apply I2. intro. apply H. now right. }
    destruct (in_dec (list_eq_dec N.eq_dec) k a) as [Hi|Hi].
    - rewrite (proj1 (G a) Hi). symmetry. apply G, H, Hi.
    - rewrite (proj2 (G a) Hi). symmetry. apply G. intro Hk. now apply Hi, H. }
  rewrite <- (HK a), <- (HK b). now rewrite E.
Qed.
Lemma eqb_entries : forall m m', NoDup (keys m) -> NoDup (keys m') ->
  (json_eqb (JObj m) (JObj m') = true <-> keys m = keys m' /\ forall k v u, In (k, v) m -> In (k, u) m' -> json_eqb v u = true).
Proof.
  induction m as [|[k v] m IH]; intros [|[k' u] m'] Nm Nm'.
  - cbn. split; [|reflexivity]. intros _. split; [reflexivity|]. intros k v u [].
  - cbn. split; [discriminate | intros [E _]; discriminate E].
  - cbn. split; [discriminate | intros [E _]; discriminate E].
  - change (json_eqb (JObj ((k, v) :: m)) (JObj ((k', u) :: m'))) with (str_eqb k k' && json_eqb v u && json_eqb (JObj m) (JObj m')).
    cbn [keys map fst] in *. apply NoDup_cons_iff in Nm as [Hk Nm]. apply NoDup_cons_iff in Nm' as [Hk' Nm'].
    rewrite !andb_true_iff, IH by assumption. rewrite str_eqb_eq. split.
    + intros [[-> Hv] [Hks Hall]]. split; [f_equal; exact Hks|]. intros k v0 u0 [E|H1] [E'|H2].
      * injection E as <- <-. injection E' as <-. exact Hv.
      * injection E as <- <-. exfalso. apply Hk'. now apply (in_map fst) in H2.
      * injection E' as <- <-. exfalso. apply Hk. now apply (in_map fst) in H1.
      * now apply (Hall k).
    + intros [E Hall]. injection E as -> Hks. split; [split; [reflexivity | apply (Hall k'); now left]|]. split; [exact Hks|].
      intros k0 v0 u0 H1 H2. apply (Hall k0); now right.
Qed.
Lemma eqb_items : forall l l', json_eqb (JArr l) (JArr l') = true <-> length l' = length l /\ forall i v u, nth_error l i = Some v -> nth_error l' i = Some u -> json_eqb v u = true.
Proof.
  induction l as [|v l IH]; intros [|u l'].
  - cbn. split; [|reflexivity]. intros _. split; [reflexivity|]. intros [|i] v u E; discriminate E.
  - cbn. split; [discriminate | intros [E _]; discriminate E].
  - cbn. split; [discriminate | intros [E _]; discriminate E].
  - change (json_eqb (JArr (v :: l)) (JArr (u :: l'))) with (json_eqb v u && json_eqb (JArr l) (JArr l')). rewrite andb_true_iff, IH. cbn [length]. split.
    + intros [H1 [H2 H3]]. split; [congruence|]. intros [|i] v0 u0 E E'; [cbn in E, E'; congruence | exact (H3 i v0 u0 E E')].
    + intros [H1 H2]. split; [exact (H2 0%nat v u eq_refl eq_refl)|]. split; [congruence|]. intros i v0 u0. exact (H2 (S i) v0 u0).
Qed.
Theorem C102_flat_documents : forall j u, json_wf j -> json_wf u -> flat_arrays j -> (json_accepts j u <-> json_eqb j u = true).
Proof.
  assert (HL : forall v u, leaf_value v -> (json_accepts v u <-> json_eqb v u = true)).
  { intros v u H. split; [|now constructor]. intro A. inversion A; subst; (assumption || destruct H). }
  induction j as [ | | | |l _|m IH] using json_ind'; intros u Wj Wu F; try (apply HL; exact I).
  - inversion F as [v H|l' H|]; subst; [destruct H|]. destruct u as [ | | | |l'|m'];
      try (split; [intro A; inversion A; subst; assumption || destruct H | discriminate]).
    all: try (split; [intro A; inversion A; subst; match goal with L : leaf_value _ |- _ => destruct L end | discriminate]).
    rewrite eqb_items. split.
    + intro A. inversion A as [? ? L|es us Hlen Hall|]; subst; [destruct L|]. split; [exact Hlen|]. intros i v u Hv Hu. apply (Hall i v u Hv Hu).
      rewrite Forall_forall in H. apply H. eapply nth_error_In; eassumption.
    + intros [Hlen Hall]. constructor; [exact Hlen|]. intros i v u Hv Hu _. exact (Hall i v u Hv Hu).
  - inversion F as [v H| |m0 H]; subst; [destruct H|]. destruct u as [ | | | |l'|m'];
      try (split; [intro A; inversion A; subst; match goal with L : leaf_value _ |- _ => destruct L end | discriminate]).
    apply json_wf_obj in Wj as [Sj Wj]. apply json_wf_obj in Wu as [Su Wu]. rewrite Forall_forall in IH, Wj, Wu.
    rewrite eqb_entries by (now apply sorted_nodup).
    assert (HE : forall k v u, In (k, v) m -> In (k, u) m' -> (json_accepts v u <-> json_eqb v u = true)).
    { intros k v u H1 H2. apply (IH (k, v) H1); [exact (Wj _ H1) | exact (Wu _ H2) | exact (H k v H1)]. }
    split.
    + intro A. inversion A as [? ? L| |m1 m2 Hk Hall]; subst; [destruct L|]. split; [now apply sorted_same|]. intros k v u H1 H2. apply (HE k); auto. now apply (Hall k).
    + intros [Hk Hall]. constructor; [intro k; unfold keys in Hk; now rewrite Hk|]. intros k v u H1 H2. apply (HE k); auto. now apply (Hall k).
Qed.

(** * A case that meets the hypotheses *)
Definition engine_ext : externals := mkExt
  (fun s => if str_eqb s (S_ "application/json;charset=UTF-8") || str_eqb s (S_ "application/json; charset=utf-8") then Some (mkCT (S_ "application") (S_ "json") [] None) else None)
  (fun _ => mkCT (S_ "text") (S_ "plain") [] None) (fun _ => None)
  (fun b => if str_eqb b (S_ "1") then Some (JNum (PosInt 1)) else if str_eqb b (S_ "2") then Some (JNum (PosInt 2))
            else if str_eqb b (S_ "{""a"":[1,[2]]}") then Some (JObj [(S_ "a", JArr [JNum (PosInt 1); JArr [JNum (PosInt 2)]])])
            else if str_eqb b (S_ "{""a"":[1,null]}") then Some (JObj [(S_ "a", JArr [JNum (PosInt 1); JNull])])
            else if str_eqb b (S_ "{""a"":[2,[2]]}") then Some (JObj [(S_ "a", JArr [JNum (PosInt 2); JArr [JNum (PosInt 2)]])]) else None)
  (fun _ => None) (fun _ _ => true) (fun _ _ _ => []) (fun _ _ _ _ _ => []).
Definition plain_texts : engine_texts := mkTexts (fun s => s) (fun _ => []) (fun b => b).
Definition engine_expected : request :=
  mkReq (S_ "post") (S_ "/x") (Some [(S_ "q", [Some (S_ "1")]); (S_ "r", [Some (S_ "b"); Some (S_ "c")])])
    (Some [(S_ "Content-Type", [S_ "application/json;charset=UTF-8"]); (S_ "X-A", [S_ "1"])]) (BPresent (S_ "{""a"":[1,[2]]}") None None) [].
Definition engine_actual (body_text : string) (x_a : list str) : request :=
  mkReq (S_ "POST") (S_ "/x") (Some [(S_ "r", [Some (S_ "b"); Some (S_ "c")]); (S_ "q", [Some (S_ "1"); Some (S_ "1")])])
    (Some [(S_ "content-type", [S_ "application/json; charset=utf-8"]); (S_ "x-a", x_a); (S_ "X-B", [])]) (BPresent (S_ body_text) None None) [].
Lemma unpadded_text sp s : forallb (fun b => negb (sp b)) s = true -> unpadded sp s.
Proof.
  intro H. rewrite forallb_forall in H. split; intros b r E; (assert (Hb : In b s) by (rewrite E; (now left) || (apply in_or_app; right; now left)));
    specialize (H b Hb); now destruct (sp b).
Qed.
Lemma charset_expected v t1 : v = (S_ "application/json") ++ 59 :: t1 -> param_text (is_space PropPattern3.digits_world) (S_ "charset", skipn 8 (filter (fun b => negb (b =? 32)) t1)) t1 ->
  ~ In 59 (skipn 8 (filter (fun b => negb (b =? 32)) t1)) -> forallb (fun b => negb (is_space PropPattern3.digits_world b)) (skipn 8 (filter (fun b => negb (b =? 32)) t1)) = true ->
  structured_expected (is_space PropPattern3.digits_world) v.
Proof.
  intros -> Hp H59 Hs. exists (mkStructured (S_ "application/json") [(S_ "charset", skipn 8 (filter (fun b => negb (b =? 32)) t1))]). split; [|split].
  - split; [discriminate|]. split; [vm_compute; intuition discriminate|]. split; [now apply unpadded_text|]. intros n u [E|[]]. injection E as <- <-.
    split; [vm_compute; intuition discriminate|]. split; [vm_compute; intuition discriminate|]. split; [exact H59|]. split; now apply unpadded_text.
  - exists (S_ "application/json"), [t1]. split; [exists [], []; split; [now rewrite app_nil_r | split; reflexivity]|]. split; [constructor; [exact Hp | constructor]|].
    cbn [flat_map]. now rewrite app_nil_r.
  - intros n u [E|[]]. injection E as <- <-. split; [|split; [discriminate | split; [discriminate | reflexivity]]].
    split; [discriminate|]. split; vm_compute; intuition discriminate.
Qed.
Theorem C102_hypotheses_met : forall body_text x_a, In body_text ["{""a"":[1,[2]]}"; "{""a"":[1,null]}"; "{""a"":[2,[2]]}"; "x"]%string ->
  let w := PropPattern3.digits_world in let e := engine_expected in let a := engine_actual body_text x_a in
  req_rules e = [] /\ query_fits (req_query e) (req_query a) /\ headers_fit (to_lower w) (is_space w) (req_headers e) (req_headers a) /\
  body_fits (expected_type w engine_ext e) (json_of_bytes engine_ext) (fun v => utf8 (json_show w v)) (req_body e) (req_body a).
Proof.
  intros bt x_a Hbt w e a. split; [reflexivity|]. split; [|split].
  - split; [|split].
    + vm_compute. repeat (apply NoDup_cons; [intro; cbn in *; intuition discriminate|]). apply NoDup_nil.
    + vm_compute. repeat (apply NoDup_cons; [intro; cbn in *; intuition discriminate|]). apply NoDup_nil.
    + vm_compute. intuition discriminate.
  - split; [|split].
    + vm_compute. repeat (apply NoDup_cons; [intro; cbn in *; intuition discriminate|]). apply NoDup_nil.
    + unfold unique_names. vm_compute. repeat (apply NoDup_cons; [intro; cbn in *; intuition discriminate|]). apply NoDup_nil.
    + intros k vs [E|[E|[]]]; injection E as <- <-.
      * split; [discriminate|]. split; [discriminate|]. intros _. split; [reflexivity|]. split.
        -- constructor; [|constructor]. apply (charset_expected _ (S_ "charset=UTF-8") eq_refl); [|vm_compute; intuition discriminate | reflexivity].
           exists (S_ "charset"), (S_ "UTF-8"). split; [exists [], []; split; [reflexivity | split; reflexivity]|]. split; [exists [], []; split; [reflexivity | split; reflexivity] | reflexivity].
        -- intros k' us [E|[E|[E|[]]]]; injection E as <- <-; intro El; try discriminate El. split; [|split; [discriminate | reflexivity]].
           constructor; [|constructor]. destruct (charset_expected (S_ "application/json; charset=utf-8") (S_ " charset=utf-8") eq_refl) as [h [H1 [H2 _]]]; [|vm_compute; intuition discriminate | reflexivity | exists h; split; assumption].
           exists (S_ " charset"), (S_ "utf-8"). split; [exists [32], []; split; [reflexivity | split; reflexivity]|]. split; [exists [], []; split; [reflexivity | split; reflexivity] | reflexivity].
      * split; [discriminate|]. split; [discriminate|]. intros [E|E]; discriminate E.
  - split; [|discriminate]. intros _. exists (JObj [(S_ "a", JArr [JNum (PosInt 1); JArr [JNum (PosInt 2)]])]). split; [reflexivity|]. split; [|split].
    + apply sn_object. intros k v [E|[]]. injection E as <- <-. split; [split; [discriminate|]; split; vm_compute; intuition discriminate|]. apply sn_array. reflexivity.
    + intros v Hv. assert (HV : v = JNum (PosInt 1) \/ v = JNum (PosInt 2)).
      { inversion Hv as [? L|? ? ? Hin Hl|? k u ? Hin Hl]; subst; [destruct L|]. destruct Hin as [E|[]]. injection E as <- <-.
        inversion Hl as [? L|? u ? Hin Hl'|]; subst; [destruct L|]. destruct Hin as [<-|[<-|[]]].
        - inversion Hl'; subst. now left.
        - inversion Hl' as [? L|? u ? Hin Hl2|]; subst; [destruct L|]. destruct Hin as [<-|[]]. inversion Hl2; subst. now right. }
      destruct HV as [->| ->]; reflexivity.
    + intros bs' u Hb Hu. cbn in Hb. injection Hb as <-. destruct Hbt as [<-|[<-|[<-|[<-|[]]]]]; vm_compute in Hu; [injection Hu as <- .. | discriminate Hu];
        (vm_compute; repeat (first [exact I | reflexivity | split | constructor])).
Qed.
(** Of these requests the first two are accepted (the second has another item in place of the array), the third is
    not, and an unexpected value of a header is not accepted. *)
Theorem C102_example : let run (b : string) h := match_request_v2 PropPattern3.digits_world engine_ext plain_texts 60 engine_expected (engine_actual b h) in
  let accepted (b : string) h := exists r, run b h = Runs [] r /\ v2_all_matched r = true in
  let refused (b : string) h := exists r, run b h = Runs [] r /\ v2_all_matched r = false in
  accepted "{""a"":[1,[2]]}"%string [S_ "1"] /\ accepted "{""a"":[1,null]}"%string [S_ "1"] /\ refused "{""a"":[2,[2]]}"%string [S_ "1"] /\
  refused "x"%string [S_ "1"] /\ refused "{""a"":[1,[2]]}"%string [S_ "2"].
Proof. cbv zeta. repeat split; eexists; (split; [vm_compute; reflexivity | reflexivity]). Qed.
