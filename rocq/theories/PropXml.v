(** Property C89: XML body matching. *)
From Coq Require Import Ascii String List Arith NArith ZArith Lia Bool Sorted Permutation.
From Verif Require Import Base PathExp SpecPath PropPath Json Text TextProofs MatchingRules SpecRules RulesProofs PropRules
  Matchers JsonCompare SpecMatch CompareProofs SpecValues PropValues SpecBody BodyProofs Headers Query ContentType Http SpecVerifier PropVerifier PropStateChange PropBroker2 Xml SpecXml.
Import ListNotations.
Open Scope N_scope.
Local Opaque show_N.

(** ** Groups *)
Section Groups.
Context {A : Type}.
Variable key : A -> str.
Definition with_key (n : str) (l : list A) : list A := filter (fun a => str_eqb (key a) n) l.
Lemma group_get : forall n l, obj_get n (group_by key l) = match with_key n l with [] => None | g => Some g end.
Proof.
  intros n l. unfold group_by.
  assert (forall l m, obj_get n (fold_left (fun m a => obj_insert (key a) (match obj_get (key a) m with Some g => g ++ [a] | None => [a] end) m) l m) =
    match with_key n l with [] => obj_get n m | g => Some (match obj_get n m with Some h => h ++ g | None => g end) end) as H.
  { induction l0 as [|a l0 IH]; intro m; [reflexivity|]. cbn [fold_left]. rewrite IH, obj_insert_get. unfold with_key. cbn [filter].
    destruct (str_eqb_spec n (key a)) as [->|Ne].
    - rewrite str_eqb_refl. fold (with_key (key a) l0). destruct (with_key (key a) l0), (obj_get (key a) m); cbn [app]; rewrite <- ?app_assoc; reflexivity.
    - assert (E : str_eqb (key a) n = false) by (apply str_eqb_neq; congruence). rewrite E. reflexivity. }
  rewrite H. destruct (with_key n l); reflexivity.
Qed.
Lemma group_sorted : forall l, StronglySorted str_lt (keys (group_by key l)).
Proof.
  intro l. unfold group_by. assert (StronglySorted str_lt (keys (@nil (str * list A)))) as H by constructor. revert H. generalize (@nil (str * list A)).
  induction l as [|a l IH]; intros m H; [exact H|]. cbn [fold_left]. apply IH, obj_insert_sorted, H.
Qed.
Lemma group_in : forall n g l, In (n, g) (group_by key l) <-> g <> [] /\ g = with_key n l.
Proof.
  intros n g l. assert (In (n, g) (group_by key l) <-> obj_get n (group_by key l) = Some g) as ->
    by (split; [apply obj_get_nodup, sorted_nodup, group_sorted|apply obj_get_in]).
  rewrite group_get. destruct (with_key n l); split; try discriminate; try (intros [? ->]; congruence).
  - intro E; injection E as <-. split; congruence.
Qed.
End Groups.

(** ** Rules *)
Lemma map_nil : forall A B (f : A -> B) l, map f l = [] <-> l = [].
Proof. intros A B f [|x l]; split; try discriminate; reflexivity. Qed.
Lemma match_values_iff : forall sat rl,
  match_values sat rl = [] <-> rl_rules rl <> [] /\ combined (rl_logic rl) (rl_rules rl) (fun r => sat r (rl_cascaded rl) = true).
Proof.
  intros sat [rs lg cs]. unfold match_values, rl_is_empty. cbn [rl_rules rl_logic rl_cascaded]. destruct rs as [|r rs]; [split; [discriminate|intros [H _]; congruence]|].
  assert (NE : r :: rs <> []) by discriminate. set (l := r :: rs) in *. clearbody l. unfold combined. destruct lg.
  - destruct (forallb (fun x => sat x cs) l) eqn:F.
    + rewrite forallb_forall in F. tauto.
    + split; [intro E|intros [_ H]].
      * exfalso. apply map_nil in E. rewrite <- not_true_iff_false, forallb_forall in F. apply F. intros x Ix. destruct (sat x cs) eqn:S1; [reflexivity|].
        assert (In x (filter (fun r0 => negb (sat r0 cs)) l)) as Q by (apply filter_In; rewrite S1; tauto). rewrite E in Q. destruct Q.
      * assert (forallb (fun x => sat x cs) l = true) by (apply forallb_forall; exact H). congruence.
  - destruct (existsb (fun x => sat x cs) l) eqn:F.
    + apply existsb_exists in F. destruct F as (x & ? & ?). split; [|reflexivity]. intros _. split; [exact NE|eauto].
    + split; [intro E|intros [_ (x & Ix & Sx)]].
      * exfalso. apply map_nil in E. destruct l as [|x l]; [congruence|]. cbn [existsb] in F. apply orb_false_iff in F. cbn [filter] in E. rewrite (proj1 F) in E. discriminate E.
      * assert (existsb (fun x => sat x cs) l = true) by (apply existsb_exists; eauto). congruence.
Qed.
Lemma combined_ext : forall lg rs (P Q : rule -> Prop), (forall r, P r <-> Q r) -> (combined lg rs P <-> combined lg rs Q).
Proof.
  intros lg rs P Q H. unfold combined. destruct lg; split.
  - intros K r I. apply H, K, I.
  - intros K r I. apply H, K, I.
  - intros (r & I & K). exists r. split; [exact I|apply H, K].
  - intros (r & I & K). exists r. split; [exact I|apply H, K].
Qed.
Lemma governed_ext : forall m p (P Q : rule -> bool -> Prop), (forall r k, P r k <-> Q r k) -> (governed m p P <-> governed m p Q).
Proof.
  assert (forall m p (P Q : rule -> bool -> Prop), (forall r k, P r k <-> Q r k) -> governed m p P -> governed m p Q) as K.
  { intros m p P Q H [[N E]|(rl & F & NE & C)]; [left; split; [exact N|apply H, E]|right]. exists rl. split; [exact F|]. split; [exact NE|].
    revert C. apply (combined_ext _ _ (fun r => P r _) (fun r => Q r _)). intro r. apply H. }
  intros m p P Q H. split; apply K; intros; [|symmetry]; apply H.
Qed.
Section Rules.
Variable c : context.
Hypothesis B : cat_name (matchers c) = CBody.
Lemma rules_iff : forall p sat,
  (if ctx_matcher_is_defined c p then match_values sat (ctx_select_best c p) else if sat REquality false then [] else [KNotEqual]) = [] <->
  governed (matchers c) p (fun r k => sat r k = true).
Proof.
  intros p sat. unfold ctx_matcher_is_defined, ctx_select_best. destruct (matcher_is_defined (matchers c) (to_vec p)) eqn:D.
  - rewrite match_values_iff. split.
    + intros [NE C]. right. exists (select_best_matcher (matchers c) (to_vec p)). split; [apply select_in_force; assumption|]. split; assumption.
    + intros [[N _]|(rl & F & NE & C)].
      * apply (defined_iff (matchers c) p B) in N. congruence.
      * rewrite (in_force_select (matchers c) p B rl F). split; assumption.
  - pose proof (proj1 (defined_iff (matchers c) p B) D) as N. split.
    + destruct (sat REquality false) eqn:E; [|discriminate]. intros _. left. split; assumption.
    + intros [[_ E]|(rl & F & _)]; [rewrite E; reflexivity|]. pose proof (in_force_defined (matchers c) p B rl F). congruence.
Qed.
Lemma type_rule_iff : forall p, ctx_type_matcher_defined c p = true <-> type_rule_at (matchers c) p.
Proof.
  intro p. unfold ctx_type_matcher_defined, resolve_matchers_for_path. rewrite B. unfold cat_filter. cbn [cat_rules]. rewrite existsb_exists. split.
  - intros ([q rl] & I & T). apply filter_In in I. destruct I as [I M]. unfold rl_type_matcher_defined in T. apply existsb_exists in T. destruct T as (r & Ir & T).
    exists (q, rl), r. split; [exact I|]. split; [apply candidate_iff; exact M|]. split; [exact Ir|]. destruct r; try discriminate T; exact Logic.I.
  - intros (e & r & I & C & Ir & T). exists e. split; [apply filter_In; split; [exact I|apply candidate_iff in C; exact C]|].
    unfold rl_type_matcher_defined. apply existsb_exists. exists r. split; [exact Ir|]. destruct r; try contradiction; reflexivity.
Qed.
Lemma type_rule_not : forall p, ctx_type_matcher_defined c p = false <-> ~ type_rule_at (matchers c) p.
Proof. intro p. rewrite <- type_rule_iff. destruct (ctx_type_matcher_defined c p); split; congruence. Qed.
End Rules.

Section Values.
Variable w : world.
Lemma xtext_iff : forall r k e a, str_matches w e a r k = true <-> xtext_satisfies w r k e a.
Proof.
  intros r k e a.
  assert (T : text_rule r -> (str_matches w e a r k = true <-> text_satisfies w r e a)).
  { intro T. rewrite <- (C42_text_value w r e a T). destruct r; try contradiction; destruct k; reflexivity. }
  destruct r; cbn [xtext_satisfies]; try (apply T; exact I); clear T; cbn [str_matches unable can_cascade]; try apply str_eqb_eq; try reflexivity;
    destruct k; cbn; split; congruence || contradiction || reflexivity.
Qed.
Lemma opt_str_eqb_eq : forall a b, opt_str_eqb a b = true <-> a = b.
Proof.
  intros [a|] [b|]; cbn; split; try discriminate; try reflexivity.
  - intro H. apply str_eqb_eq in H. congruence.
  - intro H. injection H as ->. apply str_eqb_refl.
Qed.
Lemma qname_eqb_eq : forall a b, qname_eqb a b = true <-> a = b.
Proof.
  intros [u l] [u' l']. unfold qname_eqb. cbn [q_uri q_local]. rewrite andb_true_iff, opt_str_eqb_eq, str_eqb_eq. split; [intros [-> ->]; reflexivity|intro H; injection H as -> ->; split; reflexivity].
Qed.
Lemma element_iff : forall r k e a n, element_matches w e a n r k = true <-> element_satisfies w r k e a n.
Proof.
  intros r k e a n. destruct r; cbn [element_matches element_satisfies size_allowed]; try apply qname_eqb_eq; try apply regex_ok_iff; try (split; [discriminate|contradiction]).
  - destruct k; cbn [negb andb]; [split; [discriminate|reflexivity]|]. destruct (N.ltb_spec n min); cbn; split; try discriminate; intros; try reflexivity; try lia; exfalso; specialize (H0 eq_refl); lia.
  - destruct k; cbn [negb andb]; [split; [discriminate|reflexivity]|]. destruct (N.ltb_spec max n); cbn; split; try discriminate; intros; try reflexivity; try lia; exfalso; specialize (H0 eq_refl); lia.
  - destruct k; cbn [negb andb]; [split; [discriminate|reflexivity]|]. destruct (N.ltb_spec n min), (N.ltb_spec max n); cbn; split; try discriminate; intros; try reflexivity; try lia; exfalso; specialize (H1 eq_refl); lia.
  - destruct (N.eqb_spec n 0); cbn; split; try discriminate; intros; try reflexivity; lia.
Qed.

Lemma attribute_iff : forall n l v, attribute n l v <-> obj_get n (attributes_of l) = Some v.
Proof.
  intros n l v. unfold attributes_of. rewrite of_list_get. revert v.
  assert (NO : forall l, last_entry n (map (fun qv : qname * str => (xname (fst qv), snd qv)) l) = None <-> (forall q v, In (q, v) l -> xname q <> n)).
  { clear l. induction l as [|[q v] l IH]; cbn [map last_entry fst snd]; [split; [intros _ q v []|reflexivity]|]. destruct (last_entry n _) eqn:E.
    - split; [discriminate|]. intro H. assert (Some s = None); [|discriminate]. apply IH. intros q' v' I. apply (H q' v'). right; exact I.
    - pose proof (proj1 IH eq_refl) as H. destruct (str_eqb_spec n (xname q)) as [E'|Ne].
      + split; [discriminate|]. intro K. exfalso. apply (K q v (or_introl eq_refl)). symmetry; exact E'.
      + split; [|reflexivity]. intros _ q' v' [F|I]; [injection F as <- <-; congruence|apply (H q' v' I)]. }
  induction l as [|[q v] l IH]; intro u; cbn [map last_entry fst snd].
  - split; [intro H; inversion H|discriminate].
  - destruct (last_entry n _) eqn:E.
    + split.
      * intro H. inversion H as [? ? ? Q NI| ? ? ? ? H']; subst; [exfalso|apply IH, H']. apply NO in NI. rewrite NI in E. discriminate.
      * intro H. apply at_later, IH, H.
    + pose proof (proj1 (NO l) E) as NI. destruct (str_eqb_spec n (xname q)) as [E'|Ne].
      * split; [|intro H; injection H as ->; apply at_here; [symmetry; exact E'|exact NI]].
        intro H. inversion H as [? ? ? Q NI'| ? ? ? ? H']; subst; [reflexivity|]. apply IH in H'. discriminate.
      * split; [|discriminate]. intro H. inversion H as [? ? ? Q NI'| ? ? ? ? H']; subst; [congruence|]. apply IH in H'. discriminate.
Qed.
Lemma attributes_nodup : forall l, NoDup (keys (attributes_of l)).
Proof. intro l. apply sorted_nodup, of_list_sorted. constructor. Qed.

Lemma ends_app : forall a b, no_space_ends w a -> no_space_ends w b -> no_space_ends w (a ++ b).
Proof.
  intros a b Ha Hb. destruct a as [|x a]; [exact Hb|]. destruct b as [|y b]; [rewrite app_nil_r; exact Ha|].
  unfold no_space_ends in *. cbn [app]. split; [apply Ha|]. change (x :: a ++ y :: b) with ((x :: a) ++ (y :: b)). rewrite rev_app_distr.
  destruct (rev (y :: b)) as [|z r] eqn:R; [apply (f_equal (@length N)) in R; rewrite rev_length in R; discriminate R|]. cbn [app]. apply Hb.
Qed.
Lemma element_text_in : forall l, element_text w l = text_in w l.
Proof. intro l. unfold element_text, text_in. apply flat_map_concat_map. Qed.
Lemma text_trimmed : forall l, trim w (text_in w l) = text_in w l.
Proof.
  intro l. apply (trimmed_iff w). unfold text_in. induction l as [|x l IH]; [exact I|]. cbn [map concat]. apply ends_app; [|exact IH].
  destruct x; [exact I|apply trim_ends|exact I].
Qed.
Section Ctx.
Variable c : context.
Hypothesis B : cat_name (matchers c) = CBody.
Lemma value_iff : forall p e a, compare_value w c p e a = [] <-> governed (matchers c) p (fun r k => xtext_satisfies w r k e a).
Proof.
  intros p e a. unfold compare_value. rewrite map_nil. unfold by_rule_or. rewrite (rules_iff c B). apply governed_ext. intros. apply xtext_iff.
Qed.
Lemma text_iff : forall p e a, compare_text w c p e a = [] <->
  governed (matchers c) (join p (S_ "#text")) (fun r k => xtext_satisfies w r k (text_in w e) (text_in w a)).
Proof.
  intros p e a. unfold compare_text. cbv zeta. rewrite map_nil, !element_text_in, !text_trimmed, (rules_iff c B). apply governed_ext. intros. apply xtext_iff.
Qed.
Lemma attributes_iff : forall p e a, compare_attributes w c p (attributes_of e) (attributes_of a) = [] <->
  (forall n v, attribute n e v -> exists v', attribute n a v' /\ governed (matchers c) (join p (S_ "@" ++ n)) (fun r k => xtext_satisfies w r k v v')) /\
  (allow c = false -> forall n v, attribute n a v -> exists v', attribute n e v').
Proof.
  intros p e a.
  set (P1 := forall n v, attribute n e v -> exists v', attribute n a v' /\ governed (matchers c) (join p (S_ "@" ++ n)) (fun r k => xtext_satisfies w r k v v')).
  assert (Fm : flat_map (fun kv : str * str =>
      match obj_get (fst kv) (attributes_of a) with
      | Some v => compare_value w c (join p (S_ "@" ++ fst kv)) (snd kv) v
      | None => [mkMM (path_expr (join p (S_ "@" ++ fst kv))) KAbsent]
      end) (attributes_of e) = [] <-> P1).
  { rewrite flat_map_nil. unfold P1. split.
    - intros H n v Av. apply attribute_iff in Av. specialize (H (n, v) (obj_get_in _ _ _ _ Av)). cbn [fst snd] in H.
      destruct (obj_get n (attributes_of a)) as [v'|] eqn:G; [|discriminate]. exists v'. split; [apply attribute_iff, G|apply value_iff, H].
    - intros H [n v] I. cbn [fst snd]. destruct (H n v) as (v' & Av & G); [apply attribute_iff, obj_get_nodup; [apply attributes_nodup|exact I]|].
      apply attribute_iff in Av. rewrite Av. apply value_iff, G. }
  assert (Sub : P1 -> incl (keys (attributes_of e)) (keys (attributes_of a))).
  { intros H n I. apply obj_get_keys in I. destruct I as (v & G). apply attribute_iff in G. destruct (H n v G) as (v' & Av & _). apply attribute_iff in Av. apply obj_get_keys. eauto. }
  assert (Sup : (forall n v, attribute n a v -> exists v', attribute n e v') <-> incl (keys (attributes_of a)) (keys (attributes_of e))).
  { split.
    - intros H n I. apply obj_get_keys in I. destruct I as (v & G). apply attribute_iff in G. destruct (H n v G) as (v' & Av). apply attribute_iff in Av. apply obj_get_keys. eauto.
    - intros H n v Av. apply attribute_iff in Av. assert (In n (keys (attributes_of e))) as I by (apply H, obj_get_keys; eauto). apply obj_get_keys in I. destruct I as (v' & G). exists v'. apply attribute_iff, G. }
  assert (Len : forall l : list (str * str), length (keys l) = length l) by (intro l; apply map_length).
  unfold compare_attributes. cbv zeta.
  destruct (negb (nonempty (attributes_of e)) && nonempty (attributes_of a) && negb (allow c)) eqn:X.
  - split; [discriminate|]. intros [_ H]. apply andb_true_iff in X. destruct X as [X Al]. apply andb_true_iff in X. destruct X as [Ne Na].
    apply negb_true_iff in Al, Ne. specialize (H Al). rewrite Sup in H. destruct (attributes_of e) as [|x l]; [|discriminate Ne]. destruct (attributes_of a) as [|[k v] l]; [discriminate Na|].
    exfalso. apply (H k (or_introl eq_refl)).
  - clear X. rewrite app_nil_iff, Fm. destruct (allow c).
    + split.
      * intros [_ H]. split; [exact H|discriminate].
      * intros [H _]. split; [|exact H]. pose proof (NoDup_incl_length (attributes_nodup e) (Sub H)) as L. rewrite !Len in L.
        unfold len. destruct (N.ltb_spec (N.of_nat (length (attributes_of a))) (N.of_nat (length (attributes_of e)))); [lia|reflexivity].
    + split.
      * intros [L H]. split; [exact H|]. intros _. apply Sup. unfold len in L.
        destruct (N.eqb_spec (N.of_nat (length (attributes_of e))) (N.of_nat (length (attributes_of a)))) as [E|]; [|discriminate].
        apply NoDup_length_incl; [apply attributes_nodup|rewrite !Len; lia|apply Sub, H].
      * intros [H K]. split; [|exact H]. specialize (K eq_refl). rewrite Sup in K.
        pose proof (NoDup_incl_length (attributes_nodup e) (Sub H)) as L1. pose proof (NoDup_incl_length (attributes_nodup a) K) as L2. rewrite !Len in L1, L2.
        unfold len. destruct (N.eqb_spec (N.of_nat (length (attributes_of e))) (N.of_nat (length (attributes_of a)))); [reflexivity|lia].
Qed.
End Ctx.
End Values.

(** ** Children *)
Lemma named_filter : forall n l, with_key node_name n (filter is_element l) = named n l.
Proof.
  intros n l. unfold with_key, named. induction l as [|x l IH]; [reflexivity|]. cbn [filter]. destruct x; cbn [is_element filter node_name]; rewrite IH; reflexivity.
Qed.
Lemma with_key_map : forall A B (f : A -> B) key n l, with_key key n (map f l) = map f (with_key (fun a => key (f a)) n l).
Proof. intros A B f key n l. unfold with_key. induction l as [|x l IH]; [reflexivity|]. cbn [map filter]. destruct (str_eqb (key (f x)) n); cbn [map]; rewrite IH; reflexivity. Qed.
Lemma filter_map_fst : forall (F : xml -> compared) l, (forall x, fst (F x) = x) -> filter (fun x => is_element (fst x)) (map F l) = map F (filter is_element l).
Proof. intros F l H. induction l as [|x l IH]; [reflexivity|]. cbn [map filter]. rewrite H. destruct (is_element x); cbn [map]; rewrite IH; reflexivity. Qed.

Section Children.
Variable c : context.
Hypothesis B : cat_name (matchers c) = CBody.
Variable cmp : xml -> docpath -> xml -> list mismatch.
Let F (n : xml) : compared := (n, cmp n).
Lemma pairs_iff : forall p es xs, compare_pairs c p es (map F xs) = [] <->
  (length es <= length xs)%nat /\ (allow c = false -> length xs = length es) /\
  (forall i x y, nth_error es i = Some x -> nth_error xs i = Some y -> cmp y p x = []).
Proof.
  intros p. induction es as [|e es IH]; intros xs; cbn [compare_pairs].
  - rewrite flat_map_nil. split.
    + intro H. split; [cbn; lia|]. split; [|intros [|i] x y E; discriminate].
      intro Al. destruct xs as [|x xs]; [reflexivity|]. specialize (H (F x) (or_introl eq_refl)). rewrite Al in H. discriminate.
    + intros (_ & H & _) x I. destruct (allow c); [reflexivity|]. specialize (H eq_refl). destruct xs; [destruct I|discriminate].
  - destruct xs as [|x xs]; cbn [map F].
    + split; [discriminate|]. intros [H _]. cbn in H. lia.
    + rewrite app_nil_iff, IH. cbn [length]. split.
      * intros (H0 & L & Al & H). split; [lia|]. split; [intro Q; rewrite (Al Q); reflexivity|]. intros [|i] u y E E'; cbn in E, E'; [injection E as <-; injection E' as <-; exact H0|apply (H i u y E E')].
      * intros (L & Al & H). split; [apply (H 0%nat e x); reflexivity|]. split; [lia|]. split; [intro Q; specialize (Al Q); lia|]. intros i u y E E'. apply (H (S i) u y E E').
Qed.
(** One group of children, [R] being when a child fits an expected one. *)
Definition group_ok (R : docpath -> xml -> xml -> Prop) (p : docpath) (es xs : list xml) : Prop :=
  match es with
  | [] => xs = [] \/ (allow c = true /\ ~ type_rule_at (matchers c) p)
  | e :: _ =>
      xs <> [] /\
      ((type_rule_at (matchers c) p /\ forall x, In x xs -> R p e x) \/
       (~ type_rule_at (matchers c) p /\ (length es <= length xs)%nat /\ (allow c = false -> length xs = length es) /\
        forall i x y, nth_error es i = Some x -> nth_error xs i = Some y -> R p x y))
  end.
Lemma with_key_in : forall n (l : list xml) x, In x (with_key node_name n l) -> In x l.
Proof. intros n l x I. apply filter_In in I. apply I. Qed.
Lemma children_iff : forall (R : docpath -> xml -> xml -> Prop) path es xs,
  (forall p e x, In e es -> In x xs -> cmp x p e = [] <-> R p e x) ->
  (compare_children c path es (map F xs) = [] <-> forall n, group_ok R (join path n) (with_key node_name n es) (with_key node_name n xs)).
Proof.
  intros R path es xs HR. unfold compare_children. cbv zeta.
  assert (K : forall n, with_key (fun x : compared => node_name (fst x)) n (map F xs) = map F (with_key node_name n xs)).
  { intro n. rewrite with_key_map. reflexivity. }
  destruct (negb (nonempty es) && nonempty (map F xs) && negb (allow c)) eqn:X.
  - split; [discriminate|]. intro H. exfalso. apply andb_true_iff in X. destruct X as [X Al]. apply andb_true_iff in X. destruct X as [Ne Na].
    apply negb_true_iff in Al, Ne. destruct es as [|e es]; [|discriminate Ne]. destruct xs as [|x xs]; [discriminate Na|].
    specialize (H (node_name x)). unfold with_key in H. cbn [filter] in H. rewrite str_eqb_refl in H. cbn [group_ok] in H. destruct H as [H|[H _]]; congruence.
  - clear X. rewrite app_nil_iff, !flat_map_nil. split.
    + intros [Ha He] n. set (g := with_key node_name n es). set (h := with_key node_name n xs).
      assert (Ig : forall x, In x g -> In x es) by (intro; apply with_key_in). assert (Ih : forall x, In x h -> In x xs) by (intro; apply with_key_in).
      destruct h as [|x h'] eqn:Eh.
      * destruct g as [|e g'] eqn:Eg; [left; reflexivity|]. exfalso.
        specialize (He (n, e :: g')). cbn [fst] in He. unfold obj_has in He. rewrite group_get, K in He. fold h in He. rewrite Eh in He. cbn [map] in He.
        assert (In (n, e :: g') (group_by node_name es)) as Q by (apply group_in; split; [discriminate|symmetry; exact Eg]). specialize (He Q). discriminate.
      * assert (In (n, map F h) (group_by (fun x : compared => node_name (fst x)) (map F xs))) as Q.
        { apply group_in. split; [rewrite Eh; discriminate|]. symmetry. apply K. }
        specialize (Ha _ Q). cbn [fst snd] in Ha. rewrite group_get in Ha. fold g in Ha. destruct g as [|e g'] eqn:Eg.
        -- right. destruct (negb (allow c) || ctx_type_matcher_defined c (join path n)) eqn:X; [discriminate|]. apply orb_false_iff in X. destruct X as [X1 X2].
           split; [destruct (allow c); [reflexivity|discriminate X1]|]. apply (type_rule_not c B), X2.
        -- split; [discriminate|]. rewrite <- Eh in *. destruct (ctx_type_matcher_defined c (join path n)) eqn:T.
           ++ left. split; [apply (type_rule_iff c B), T|]. intros y Iy. rewrite flat_map_nil in Ha. specialize (Ha (F y) (in_map F _ _ Iy)). cbn [snd F] in Ha.
              apply HR; [apply Ig; left; reflexivity|apply Ih, Iy|exact Ha].
           ++ right. split; [apply (type_rule_not c B), T|]. apply pairs_iff in Ha. destruct Ha as (L & Al & H). split; [exact L|]. split; [exact Al|].
              intros i u y E E'. apply HR; [apply Ig; eapply nth_error_In, E|apply Ih; eapply nth_error_In, E'|]. apply (H i u y E E').
    + intro H. split.
      * intros [n g'] I. apply group_in in I. destruct I as [NE ->]. cbn [fst snd]. rewrite K in *. rewrite group_get. specialize (H n).
        set (g := with_key node_name n es) in *. set (h := with_key node_name n xs) in *.
        assert (Ig : forall x, In x g -> In x es) by (intro; apply with_key_in). assert (Ih : forall x, In x h -> In x xs) by (intro; apply with_key_in).
        clearbody g h. destruct g as [|e g'].
        -- destruct H as [->|[Al T]]; [exfalso; apply NE; reflexivity|]. rewrite Al. apply (type_rule_not c B) in T. rewrite T. reflexivity.
        -- destruct H as [_ [[T H]|(T & L & Al & H)]].
           ++ apply (type_rule_iff c B) in T. rewrite T. rewrite flat_map_nil. intros y Iy. apply in_map_iff in Iy. destruct Iy as (z & <- & Iz). cbn [snd F].
              apply HR; [apply Ig; left; reflexivity|apply Ih, Iz|apply H, Iz].
           ++ apply (type_rule_not c B) in T. rewrite T. apply pairs_iff. split; [exact L|]. split; [exact Al|].
              intros i u y E E'. apply HR; [apply Ig; eapply nth_error_In, E|apply Ih; eapply nth_error_In, E'|]. apply (H i u y E E').
      * intros [n g] I. apply group_in in I. destruct I as [NE ->]. cbn [fst]. unfold obj_has. rewrite group_get, K. specialize (H n).
        destruct (with_key node_name n es) as [|e g']; [congruence|]. destruct H as [H _]. destruct (with_key node_name n xs); [congruence|reflexivity].
Qed.
End Children.

(** ** Elements *)
Section Nested.
Variable P : xml -> Prop.
Hypothesis HE : forall q a l, Forall P l -> P (XElem q a l).
Hypothesis HT : forall s, P (XText s).
Hypothesis HO : P XOther.
Fixpoint xml_nested (x : xml) : P x :=
  match x with
  | XElem q a l => HE q a l ((fix go (l : list xml) : Forall P l := match l with [] => Forall_nil _ | y :: l' => Forall_cons _ (xml_nested y) (go l') end) l)
  | XText s => HT s
  | XOther => HO
  end.
End Nested.
Lemma group_fits_iff : forall w c p es xs, group_fits w c p es xs <-> group_ok c (fits w c) p es xs.
Proof.
  intros w c p es xs. split.
  - intro H. destruct H as [p|p a Al T|p e es a T NE H|p es a NE T L Al H]; cbn [group_ok].
    + left; reflexivity.
    + right; split; assumption.
    + split; [exact NE|]. left. split; assumption.
    + destruct es as [|e es]; [congruence|]. split; [destruct a; [cbn in L; lia|discriminate]|]. right. repeat split; assumption.
  - destruct es as [|e es]; cbn [group_ok].
    + intros [->|[Al T]]; [apply gf_none|apply gf_unexpected; assumption].
    + intros [NE [[T H]|(T & L & Al & H)]]; [apply gf_all_like_first; assumption|apply gf_one_by_one; assumption || discriminate].
Qed.
(** C89: an element is accepted exactly if it fits. *)
Theorem C89_exact : forall w c p e a, cat_name (matchers c) = CBody -> is_element e = true -> is_element a = true ->
  (compare_element w c p e a = [] <-> fits w c p e a).
Proof.
  intros w c p e a B. revert p e. induction a as [aq aa ach IH| |] using xml_nested; intros p e Ee Ea; try discriminate Ea.
  destruct e as [eq ea ech| |]; try discriminate Ee. cbn [compare_element].
  assert (EI : by_rule_or c p (element_matches w eq aq (len ach)) = [] <-> governed (matchers c) p (fun r k => element_satisfies w r k eq aq (len ach))).
  { unfold by_rule_or. rewrite (rules_iff c B). apply governed_ext. intros. apply element_iff. }
  rewrite filter_map_fst by reflexivity.
  assert (CI : compare_children c p (filter is_element ech) (map (fun n => (n, fun p e => compare_element w c p e n)) (filter is_element ach)) = [] <->
    forall n, group_fits w c (join p n) (named n ech) (named n ach)).
  { rewrite (children_iff c B (fun n p e => compare_element w c p e n) (fits w c)).
    - split; intros H n; specialize (H n); rewrite !named_filter, <- ?group_fits_iff in *; exact H.
    - intros p' e' x Ie Ix. apply filter_In in Ie, Ix. rewrite Forall_forall in IH. apply IH; tauto. }
  assert (All : forall L1 L2 L3 : list mismatch, L1 ++ L2 ++ L3 = [] <-> L1 = [] /\ L2 = [] /\ L3 = []) by (intros; rewrite !app_nil_iff; tauto).
  split.
  - destruct (by_rule_or c p _) eqn:E; [|intro H; apply map_nil in H; discriminate]. intro H. apply All in H. destruct H as (H1 & H2 & H3).
    apply (attributes_iff w c B) in H1. pose proof (proj1 CI H2) as H2'. apply (text_iff w c B) in H3. apply fits_element; try tauto.
  - intro H. inversion H as [? ? ? ? ? ? ? G A1 A2 C T]; subst. apply EI in G. rewrite G. apply All. split; [apply (attributes_iff w c B); split; assumption|].
    split; [exact (proj2 CI C)|apply (text_iff w c B), T].
Qed.

(** C89: without rules. *)
Section NoRules.
Variable w : world.
Variable c : context.
Hypothesis NR : no_rules c.
Lemma free : forall p, no_rule_at (matchers c) p.
Proof. intros p e I. unfold no_rules in NR. rewrite NR in I. destruct I. Qed.
Lemma free_governed : forall p P, governed (matchers c) p P <-> P REquality false.
Proof.
  intros p P. split; [|intro H; left; split; [apply free|exact H]]. intros [[_ H]|(rl & (b & e & a & E & _) & _)]; [exact H|].
  unfold no_rules in NR. rewrite NR in E. destruct b; discriminate.
Qed.
Lemma free_type : forall p, ~ type_rule_at (matchers c) p.
Proof. intros p (e & r & I & _). unfold no_rules in NR. rewrite NR in I. destruct I. Qed.
Lemma nth_pairs : forall (R : xml -> xml -> Prop) es xs, (length es <= length xs)%nat -> (allow c = false -> length xs = length es) ->
  (forall i x y, nth_error es i = Some x -> nth_error xs i = Some y -> R x y) ->
  exists l rest, xs = l ++ rest /\ Forall2 R es l /\ (allow c = false -> rest = []).
Proof.
  induction es as [|e es IH]; intros xs L Al H.
  - exists [], xs. split; [reflexivity|]. split; [constructor|]. intro Q. specialize (Al Q). destruct xs; [reflexivity|discriminate].
  - destruct xs as [|x xs]; [cbn in L; lia|]. cbn [length] in L, Al. destruct (IH xs) as (l & rest & E & F & G); [lia|intro Q; specialize (Al Q); lia|intros i u v; apply (H (S i))|].
    exists (x :: l), rest. split; [rewrite E; reflexivity|]. split; [constructor; [apply (H 0%nat); reflexivity|exact F]|exact G].
Qed.
Lemma pairs_nth : forall (R : xml -> xml -> Prop) es l rest i x y, Forall2 R es l -> nth_error es i = Some x -> nth_error (l ++ rest) i = Some y -> R x y.
Proof.
  intros R es l rest i x y F. revert i. induction F as [|e u es l H F IH]; intros i E E'; [destruct i; discriminate|].
  destruct i as [|i]; cbn in E, E'; [injection E as <-; injection E' as <-; exact H|apply (IH i E E')].
Qed.
Theorem C89_without_rules : forall p e a, is_element e = true -> is_element a = true -> cat_name (matchers c) = CBody ->
  (compare_element w c p e a = [] <-> alike w (allow c) e a).
Proof.
  intros p e a Ee Ea B. rewrite C89_exact by assumption. clear B Ee Ea. revert p e. induction a as [aq aa ach IH| |] using xml_nested; intros p e.
  2,3: split; intro H; inversion H.
  assert (IN : forall n y, In y (named n ach) -> forall p' x, fits w c p' x y <-> alike w (allow c) x y).
  { intros n y Iy p' x. rewrite Forall_forall in IH. apply IH. apply filter_In in Iy. apply Iy. }
  split; intro H.
  - inversion H as [? eq ea ech ? ? ? G A1 A2 C T]; subst. rewrite free_governed in G, T. cbn in G, T. subst aq. apply al_element.
    + intros n v Av. destruct (A1 n v Av) as (v' & Av' & K). rewrite free_governed in K. cbn in K. subst v'. exact Av'.
    + exact A2.
    + intro n. specialize (C n). apply group_fits_iff in C. destruct (named n ech) as [|e0 es] eqn:En.
      * exists [], (named n ach). split; [reflexivity|]. split; [constructor|]. intro Q. destruct C as [->|[Al _]]; [reflexivity|congruence].
      * cbn [group_ok] in C. rewrite <- En in *. destruct C as [_ [[K _]|(_ & L & Al & K)]]; [destruct (free_type _ K)|].
        apply (nth_pairs (alike w (allow c))); [exact L|exact Al|]. intros i x y E1 E2. apply (IN n y (nth_error_In _ _ E2) (join p n)), (K i x y E1 E2).
    + exact T.
  - inversion H as [q ea ech ? ? A1 A2 C T]; subst. apply fits_element; rewrite ?free_governed; cbn.
    + reflexivity.
    + intros n v Av. exists v. split; [apply A1, Av|]. rewrite free_governed. reflexivity.
    + exact A2.
    + intro n. apply group_fits_iff. destruct (C n) as (l & rest & E & F & Al). destruct (named n ech) as [|e0 es] eqn:En; cbn [group_ok].
      * inversion F; subst l. cbn [app] in E. destruct (allow c) eqn:Q; [right; split; [reflexivity|apply free_type]|left; rewrite E; apply Al; reflexivity].
      * rewrite <- En in *. pose proof (F2_length _ _ _ _ _ F) as L. split; [intro Z; rewrite Z in E; destruct l; [rewrite En in L; discriminate L|discriminate E]|].
        right. split; [apply free_type|]. split; [rewrite E, app_length; lia|]. split; [intro Q; rewrite E, (Al Q), app_nil_r; symmetry; exact L|].
        intros i x y E1 E2. apply (IN n y (nth_error_In _ _ E2)). rewrite E in E2. apply (pairs_nth _ _ _ _ i x y F E1 E2).
    + exact T.
Qed.
End NoRules.
(** C89: without rules an element is accepted as itself. *)
Theorem C89_itself : forall w c p e, no_rules c -> cat_name (matchers c) = CBody -> is_element e = true -> compare_element w c p e e = [].
Proof.
  intros w c p e NR B Ee. apply C89_without_rules; try assumption. revert Ee. induction e as [q a l IH| |] using xml_nested; intro Ee; try discriminate Ee.
  apply al_element; [tauto|eauto| |reflexivity]. intro n. exists (named n l), []. split; [symmetry; apply app_nil_r|]. split; [|reflexivity].
  unfold named. induction l as [|x l IHl]; [constructor|]. inversion IH; subst. cbn [filter]. destruct x as [q' a' l'| |]; [|apply IHl; assumption|apply IHl; assumption].
  destruct (str_eqb (xname q') n); [constructor; [apply H1; reflexivity|]|]; apply IHl; assumption.
Qed.
(** C89: how the children of different names, the texts and the comments are interleaved does not matter, except to the rules that count them. *)
Theorem C89_interleaving : forall w c p e q a l l', cat_name (matchers c) = CBody -> is_element e = true -> length l = length l' -> (forall n, named n l = named n l') -> text_in w l = text_in w l' ->
  (compare_element w c p e (XElem q a l) = [] <-> compare_element w c p e (XElem q a l') = []).
Proof.
  intros w c p e q a l l' B Ee L N T. rewrite !C89_exact by assumption || reflexivity.
  assert (forall l l', length l = length l' -> (forall n, named n l = named n l') -> text_in w l = text_in w l' -> fits w c p e (XElem q a l) -> fits w c p e (XElem q a l')) as K.
  { clear. intros l l' L N T H. inversion H as [? eq ea ech ? ? ? G A1 A2 C Tx]; subst. apply fits_element; try assumption.
    - unfold len in *. rewrite <- L. exact G.
    - intro n. rewrite <- N. apply C.
    - rewrite <- T. exact Tx. }
  split; apply K; auto; intro; symmetry; apply N.
Qed.

(** C89: bodies. Both have to be present and well-formed, and the root element has to fit; nothing is asked of the actual body if none was expected. *)
Theorem C89_bodies : forall w parse e a c, cat_name (matchers c) = CBody -> (forall b r, parse b = Some r -> is_element r = true) ->
  (match_xml w parse e a c = [] <->
   match e with
   | BPresent eb _ _ => exists ab ct h er ar, a = BPresent ab ct h /\ parse eb = Some er /\ parse ab = Some ar /\ fits w c (join path_root (node_name er)) er ar
   | _ => True
   end).
Proof.
  intros w parse e a c B PE. destruct e as [| | |eb ct h]; cbn [match_xml]; try tauto.
  destruct a as [| | |ab act ah]; try (split; [discriminate|intros (? & ? & ? & ? & ? & E & _); discriminate]).
  destruct (parse eb) as [er|] eqn:Pe, (parse ab) as [ar|] eqn:Pa; try (split; [discriminate|intros (? & ? & ? & ? & ? & E & E1 & E2 & _); inversion E; subst; congruence]).
  rewrite C89_exact by (assumption || eapply PE; eassumption). split.
  - intro H. exists ab, act, ah, er, ar. repeat split; assumption.
  - intros (? & ? & ? & ? & ? & E & E1 & E2 & H). inversion E; subst. assert (x2 = er) by congruence. assert (x3 = ar) by congruence. subst. exact H.
Qed.
(** C89: the bodies of requests and responses whose content type is an XML one. *)
Theorem C89_http : forall w x parse ct e a c, cat_name (matchers c) = CBody -> (forall b r, parse b = Some r -> is_element r = true) ->
  Http.match_xml x = match_xml w parse -> is_json ct = false -> is_xml ct = true -> body_present (part_body e) = true -> body_present (part_body a) = true ->
  (match_body_content w x ct e a c = Ok BodyOk <->
   exists eb ec eh ab ac ah er ar, part_body e = BPresent eb ec eh /\ part_body a = BPresent ab ac ah /\ parse eb = Some er /\ parse ab = Some ar /\
     fits w c (join path_root (node_name er)) er ar).
Proof.
  intros w x parse ct e a c B PE M J X Pe Pa. unfold match_body_content. destruct (part_body e) as [| | |eb ec eh] eqn:Be; try discriminate Pe.
  destruct (part_body a) as [| | |ab ac ah] eqn:Ba; try discriminate Pa. unfold compare_bodies, compare_bodies_core. rewrite J, X, Be, Ba, M. cbn [bind].
  pose proof (C89_bodies w parse (BPresent eb ec eh) (BPresent ab ac ah) c B PE) as K. cbv beta iota in K.
  destruct (match_xml w parse (BPresent eb ec eh) (BPresent ab ac ah) c).
  - split; [|reflexivity]. intros _. destruct (proj1 K eq_refl) as (b & t & h & er & ar & E & P1 & P2 & H). inversion E; subst. exists eb, ec, eh, b, t, h, er, ar. repeat split; assumption.
  - split; [discriminate|]. intros (eb' & ec' & eh' & ab' & ac' & ah' & er & ar & E & E' & P1 & P2 & H). inversion E; inversion E'; subst.
    enough (m :: l = []) by discriminate. apply K. exists ab', ac', ah', er, ar. repeat split; assumption.
Qed.

(** ** Examples *)
Definition el (n : String.string) (l : list xml) : xml := XElem (mkQ None (S_ n)) [] l.
Definition at_a : docpath := push_field path_root (S_ "a").
Definition rules_at (p : docpath) (rs : list rule) (extra : bool) : context := mkCtx extra (mkCat CBody [(p, mkRules rs And false)]).
(** A body that is accepted and one that is not, with attributes, texts and children in another order. *)
Theorem C89_example : forall w,
  let c := rules_at (push_field (push_field at_a (S_ "b")) (S_ "@id")) [RInteger] false in
  let b (id : str) := XElem (mkQ None (S_ "b")) [(mkQ None (S_ "id"), id)] [XText (S_ " x ")] in
  compare_element w c at_a (el "a" [b (S_ "1"); el "c" []]) (el "a" [el "c" []; b (S_ "27")]) = [] /\
  fits w c at_a (el "a" [b (S_ "1"); el "c" []]) (el "a" [el "c" []; b (S_ "27")]) /\
  compare_element w c at_a (el "a" [b (S_ "1"); el "c" []]) (el "a" [el "c" []; b (S_ "no")]) <> [] /\
  compare_element w c at_a (el "a" [b (S_ "1"); el "c" []]) (el "a" [b (S_ "1")]) <> [] /\
  compare_element w c at_a (el "a" [b (S_ "1")]) (el "a" [b (S_ "1"); el "c" []]) <> [].
Proof.
  intros w c b. assert (compare_element w c at_a (el "a" [b (S_ "1"); el "c" []]) (el "a" [el "c" []; b (S_ "27")]) = []) as H by (vm_compute; reflexivity).
  split; [exact H|]. split; [apply C89_exact; [reflexivity..|exact H]|]. repeat split; vm_compute; discriminate.
Qed.
(** The size of a type rule counts the nodes in each element, not the elements: of two elements, as asked for, both are refused, while one
    element with two comments in it is accepted. *)
Theorem C89_why_sizes : forall w,
  let c := rules_at (push_field at_a (S_ "b")) [RMinType 2] false in
  compare_element w c at_a (el "a" [el "b" []]) (el "a" [el "b" []; el "b" []]) <> [] /\
  compare_element w c at_a (el "a" [el "b" []]) (el "a" [el "b" [XOther; XOther]]) = [].
Proof. intros w c. split; [vm_compute; discriminate|vm_compute; reflexivity]. Qed.
(** Where unexpected children are allowed they are still refused under a type rule. *)
Theorem C89_why_unexpected : forall w,
  compare_element w (mkCtx true (mkCat CBody [])) at_a (el "a" [el "b" []]) (el "a" [el "b" []; el "c" []]) = [] /\
  compare_element w (rules_at at_a [RType] true) at_a (el "a" [el "b" []]) (el "a" [el "b" []; el "c" []]) <> [].
Proof. intros w. split; [vm_compute; reflexivity|vm_compute; discriminate]. Qed.
(** The pieces of the text in an element are put together without what separates them. *)
Theorem C89_why_text : forall w,
  compare_element w (mkCtx false (mkCat CBody [])) at_a (el "a" [XText (S_ "1 "); el "b" []; XText (S_ " 2")]) (el "a" [el "b" []; XText (S_ "12")]) = [].
Proof. intro w. vm_compute. reflexivity. Qed.
