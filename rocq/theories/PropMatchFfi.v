(** C126: checking a value against a rule through the C interface. *)
From Coq Require Import Ascii String List Arith NArith ZArith Lia Bool.
From Coq Require Import Floats.SpecFloat.
From Verif Require Import Base PathExp Json Text MatchingRules Matchers SpecMatch SpecValues PropMatch PropValues SpecXml PropXml Http FfiRead PropFfiRead MatchFfi SpecMatchFfi.
Import ListNotations.
Open Scope N_scope.

Section Calls.
Variable w : world.
Variable x : externals.
Variable why : pair -> rule -> bool -> str.
Variable bad_json : list N -> str.
Notation matches_value := (matches_value w x why bad_json).
Notation follows := (follows w x).

Lemma unable_iff : forall r (k : bool), unable k r = true <-> passed_over r (k = true).
Proof. intros r k. unfold unable, passed_over. destruct r, k; cbn; split; try discriminate; try tauto; intros [? ?]; try discriminate; try contradiction. Qed.
Lemma nonempty_iff : forall A (l : list A), nonempty l = true <-> l <> [].
Proof. intros A [|y l]; cbn; split; congruence. Qed.
Lemma seen_iff : forall a (f : str -> bool) (P : str -> Prop), (forall s, f s = true <-> P s) ->
  (match from_utf8 a with Some s => f s | None => false end = true <-> exists s, from_utf8 a = Some s /\ P s).
Proof.
  intros a f P F. destruct (from_utf8 a) as [s|]; [rewrite F|]; split; try discriminate; eauto.
  - intros (s' & E & H). injection E as <-. exact H.
  - intros (s' & E & _). discriminate.
Qed.
Lemma text_right : forall e a r (k : bool), str_matches w e a r k = true <-> follows (PText e a) r (k = true).
Proof.
  intros e a r k. destruct r; cbn [SpecMatchFfi.follows]; try (rewrite xtext_iff; reflexivity); apply unable_iff.
Qed.
Lemma json_right : forall e a r (k : bool), json_matches w e a r k = true <-> follows (PJson e a) r (k = true).
Proof.
  intros e a r k.
  assert (V : value_rule r -> (json_matches w e a r k = true <-> json_satisfies w r a)) by (intro V; now apply C42_json_value).
  assert (T : type_rule r -> (json_matches w e a r k = true <-> type_of e = type_of a /\ (~ k = true -> forall l l', e = JArr l -> a = JArr l' -> size_allowed r (len l')))).
  { intro T. rewrite (C15_sized_rules w r e a k T). rewrite <- not_true_iff_false. reflexivity. }
  destruct r; cbn [SpecMatchFfi.follows]; try (apply V; exact I); try (apply T; exact I); cbn [json_matches]; tauto.
Qed.
(** The check of each kind of value: [Panic] where it fails to say why. *)
Definition fate (o : outcome bool unit) (F S : Prop) : Prop :=
  (o = Ok true /\ F) \/ (o = Panic /\ ~ F /\ S) \/ (o = Ok false /\ ~ F /\ ~ S).
Lemma fate_bool : forall (b : bool) (F : Prop), (b = true <-> F) -> fate (Ok b) F False.
Proof. intros [|] F E; unfold fate; [left; split; [reflexivity|now apply E]|right; right]. split; [reflexivity|]. split; [|tauto]. intro H. apply E in H. discriminate. Qed.
Lemma short_iff : forall n : list N, short n = true <-> (length n < 10)%nat.
Proof. intro n. unfold short. apply Nat.ltb_lt. Qed.
Lemma fate_unable : forall r k a, fate (if unable k r then Ok true else if short a then Panic else Ok false) (passed_over r (k = true)) (length a < 10)%nat.
Proof.
  intros r k a. pose proof (unable_iff r k) as U. pose proof (short_iff a) as SH. unfold fate. destruct (unable k r); [left; split; [reflexivity|now apply U]|].
  assert (NP : ~ passed_over r (k = true)) by (intro P; apply U in P; discriminate).
  destruct (short a); [right; left|right; right]; (split; [reflexivity|split; [exact NP|]]); [now apply SH|]. intro L. apply SH in L. discriminate.
Qed.
Lemma pair_right : forall p r k, fate (pair_matches w x p r k) (follows p r (k = true)) (speechless p r).
Proof.
  intros p r k. destruct p as [e a|e a|e a|e a|e a|e a|e a]; try (apply fate_bool).
  - apply text_right.
  - destruct r; cbn [u64_matches SpecMatchFfi.follows number_follows]; try apply unable_iff; try tauto.
    + apply N.eqb_eq.
    + apply regex_ok_iff.
    + apply contains_iff.
    + split; [discriminate|tauto].
    + apply in_class_iff.
  - destruct r; cbn [i64_matches SpecMatchFfi.follows number_follows]; try apply unable_iff; try tauto.
    + apply Z.eqb_eq.
    + apply regex_ok_iff.
    + apply contains_iff.
    + split; [discriminate|tauto].
    + rewrite unable_iff. unfold passed_over. tauto.
  - destruct r; cbn [f64_matches SpecMatchFfi.follows number_follows]; try apply unable_iff; try tauto.
    + apply regex_ok_iff.
    + apply contains_iff.
    + split; [discriminate|tauto].
    + rewrite unable_iff. unfold passed_over. tauto.
  - destruct r; cbn [bool_matches SpecMatchFfi.follows]; try apply unable_iff; try tauto.
    + rewrite eqb_true_iff. split; congruence.
    + apply regex_ok_iff.
  - destruct r; cbn [pair_matches bytes_matches SpecMatchFfi.follows speechless]; try apply fate_unable; try (left; split; [reflexivity|exact I]); try (apply fate_bool; reflexivity).
    + pose proof (short_iff e) as SE. pose proof (short_iff a) as SA. unfold fate. destruct (str_eqb_spec e a) as [->|NE]; [left; auto|right].
      destruct (short e); [left; split; [reflexivity|split; [exact NE|left; now apply SE]]|].
      destruct (short a); [left; split; [reflexivity|split; [exact NE|right; now apply SA]]|right; split; [reflexivity|split; [exact NE|]]].
      intros [L|L]; [apply SE in L|apply SA in L]; discriminate.
    + apply fate_bool, seen_iff. intro t. apply regex_ok_iff.
    + apply fate_bool, seen_iff. intro t. apply contains_iff.
    + apply fate_bool. apply nonempty_iff.
  - apply json_right.
Qed.

Lemma safe_some : forall p s, safe_str p = Some s <-> exists b, p = Some b /\ from_utf8 b = Some s.
Proof.
  intros [b|] s; cbn; split; try discriminate; eauto.
  - intros (b' & E & H). injection E as <-. exact H.
  - intros (b' & E & _). discriminate.
Qed.
Lemma safe_none : forall p, safe_str p = None <-> no_text p.
Proof.
  intros p. split.
  - intros H b s -> U. cbn in H. congruence.
  - intros H. destruct p as [b|]; [|reflexivity]. cbn. destruct (from_utf8 b) as [s|] eqn:U; [|reflexivity]. exfalso. exact (H b s eq_refl U).
Qed.
Lemma flag_iff : forall n b, (b = true <-> n <> 0) <-> b = (0 <? n).
Proof. intros n b. destruct (N.ltb_spec 0 n) as [L|L]; destruct b; split; intros; try congruence; try (split; intros; try lia; congruence); exfalso; try (assert (n <> 0) by lia; intuition congruence); assert (n <> 0) by intuition; lia. Qed.
Lemma taken_pair : forall g p, taken x bad_json g = inr p <-> means x g p.
Proof.
  intros g p. split.
  - destruct g as [e a|e a|e a|e a|e a|e a|e a]; cbn; try (intro H; injection H as <-; constructor).
    + destruct (safe_str e) as [e'|] eqn:E; [|discriminate]. destruct (safe_str a) as [a'|] eqn:A; [|discriminate]. intro H; injection H as <-.
      apply safe_some in E, A. destruct E as (eb & -> & E), A as (ab & -> & A). now constructor.
    + apply flag_iff. reflexivity.
    + apply flag_iff. reflexivity.
    + destruct (safe_str e) as [e'|] eqn:E; [|discriminate]. destruct (safe_str a) as [a'|] eqn:A; [|discriminate].
      destruct (json_of_bytes x (utf8 e')) eqn:JE; [|discriminate]. destruct (json_of_bytes x (utf8 a')) eqn:JA; [|discriminate]. intro H; injection H as <-.
      apply safe_some in E, A. destruct E as (eb & -> & E), A as (ab & -> & A). eapply m_json; eassumption.
  - intro H. destruct H as [eb ab e a E A| | | |n m e a E A| |eb ab et at_ e a E A JE JA]; cbn; try reflexivity.
    + now rewrite E, A.
    + apply flag_iff in E, A. now rewrite <- E, <- A.
    + now rewrite E, A, JE, JA.
Qed.
Lemma taken_bad : forall g s, taken x bad_json g = inl (Some s) <-> unparsed x bad_json g s.
Proof.
  intros g s. split.
  - destruct g as [e a|e a|e a|e a|e a|e a|e a]; cbn; try discriminate; destruct (safe_str e) as [e'|] eqn:E; try discriminate; destruct (safe_str a) as [a'|] eqn:A; try discriminate.
    apply safe_some in E, A. destruct E as (eb & -> & E), A as (ab & -> & A).
    destruct (json_of_bytes x (utf8 e')) eqn:JE; [destruct (json_of_bytes x (utf8 a')) eqn:JA; [discriminate|]|]; intro H; injection H as <-.
    + eapply up_actual; eassumption.
    + eapply up_expected; eassumption.
  - intro H. destruct H as [eb ab e a E A J|eb ab e a j E A JE JA]; cbn.
    + now rewrite E, A, J.
    + now rewrite E, A, JE, JA.
Qed.
Lemma taken_none : forall g, taken x bad_json g = inl None <-> illegible g.
Proof.
  intros g. destruct g as [e a|e a|e a|e a|e a|e a|e a]; cbn; try (split; [discriminate|contradiction]); rewrite <- !safe_none;
    destruct (safe_str e) as [e'|], (safe_str a) as [a'|];
    repeat match goal with |- context [match json_of_bytes x ?y with _ => _ end] => destruct (json_of_bytes x y) end;
    (split; [intro H; try discriminate H; auto|intros [H|H]; first [discriminate H|reflexivity]]).
Qed.
Lemma told_message : forall s b, told s = RMessage b <-> ~ In 0 s /\ b = utf8 s.
Proof.
  intros s b. unfold told, to_c. destruct (existsb (fun c => c =? 0) s) eqn:E; split; try discriminate.
  - intros [H _]. exfalso. apply existsb_exists in E. destruct E as (y & I & E). apply N.eqb_eq in E. now subst.
  - intro H; injection H as <-. split; [|reflexivity]. intro I. rewrite <- not_true_iff_false, existsb_exists in E. apply E. exists 0. auto.
  - intros [_ ->]. reflexivity.
Qed.
Lemma told_failed : forall s, (In 0 s -> told s = RFailed panicked) /\ told s <> RNullPtr.
Proof.
  intro s. unfold told, to_c. split.
  - intro I. destruct (existsb (fun c => c =? 0) s) eqn:E; [reflexivity|]. rewrite <- not_true_iff_false, existsb_exists in E. exfalso. apply E. exists 0. auto.
  - destruct (existsb _ s); discriminate.
Qed.
Lemma cascaded_iff : forall n p r, follows p r ((0 <? n) = true) <-> follows p r (n <> 0).
Proof.
  intros n p r. assert (E : (0 <? n) = true <-> n <> 0) by (rewrite N.ltb_lt; lia).
  destruct p, r; cbn [SpecMatchFfi.follows number_follows]; unfold passed_over; rewrite ?E; reflexivity.
Qed.

(** NULL comes back exactly if there is a rule, the arguments can be read and the actual value follows the rule. *)
Theorem C126_null_is_a_match : forall r g cascaded,
  matches_value r g cascaded = RNullPtr <-> exists rule p, r = Some rule /\ means x g p /\ follows p rule (cascaded <> 0).
Proof.
  intros r g k. unfold MatchFfi.matches_value. destruct r as [rule|]; [|split; [discriminate|intros (? & ? & E & _); discriminate]].
  destruct (taken x bad_json g) as [[s|]|p] eqn:T.
  - split; [intro H; exfalso; exact (proj2 (told_failed s) H)|]. intros (? & p & _ & M & _). apply taken_pair in M. congruence.
  - split; [discriminate|]. intros (? & p & _ & M & _). apply taken_pair in M. congruence.
  - assert (E : (exists rule0 p0, Some rule = Some rule0 /\ means x g p0 /\ follows p0 rule0 (k <> 0)) <-> follows p rule ((0 <? k) = true)).
    { rewrite cascaded_iff. split.
      - intros (rule' & p' & ER & M & F). injection ER as <-. apply taken_pair in M. congruence.
      - intro F. exists rule, p. split; [reflexivity|]. split; [now apply taken_pair|exact F]. }
    rewrite E. destruct (pair_right p rule (0 <? k)) as [[-> F]|[[-> [NF _]]|[-> [NF _]]]].
    + split; auto.
    + split; [discriminate|tauto].
    + split; [intro H; exfalso; exact (proj2 (told_failed _) H)|tauto].
Qed.
(** A message without a last error: the mismatch, or JSON that does not parse. *)
Theorem C126_message : forall r g cascaded b,
  matches_value r g cascaded = RMessage b <->
  exists rule s, r = Some rule /\ b = utf8 s /\ ~ In 0 s /\
    (unparsed x bad_json g s \/
     exists p, means x g p /\ ~ follows p rule (cascaded <> 0) /\ ~ speechless p rule /\ s = why p rule (negb (cascaded =? 0))).
Proof.
  intros r g k b. assert (KK : (0 <? k) = negb (k =? 0)) by (destruct (N.ltb_spec 0 k), (N.eqb_spec k 0); try reflexivity; lia).
  unfold MatchFfi.matches_value. destruct r as [rule|]; [|split; [discriminate|intros (? & ? & E & _); discriminate]].
  destruct (taken x bad_json g) as [[s|]|p] eqn:T.
  - rewrite told_message. split.
    + intros [Z ->]. exists rule, s. repeat split; auto. left. now apply taken_bad.
    + intros (? & s' & _ & -> & Z & [U|(p & M & _)]); [apply taken_bad in U|apply taken_pair in M; congruence]. assert (s' = s) by congruence. subst. auto.
  - split; [discriminate|]. intros (? & s' & _ & _ & _ & [U|(p & M & _)]); [apply taken_bad in U|apply taken_pair in M]; congruence.
  - assert (R : (exists rule0 s, Some rule = Some rule0 /\ b = utf8 s /\ ~ In 0 s /\ (unparsed x bad_json g s \/
       exists p0, means x g p0 /\ ~ follows p0 rule0 (k <> 0) /\ ~ speechless p0 rule0 /\ s = why p0 rule0 (negb (k =? 0)))) <->
       (~ In 0 (why p rule (0 <? k)) /\ b = utf8 (why p rule (0 <? k))) /\ ~ follows p rule ((0 <? k) = true) /\ ~ speechless p rule).
    { rewrite cascaded_iff, KK. split.
      - intros (rule' & s & ER & -> & Z & [U|(p' & M & NF & NS & ->)]); [apply taken_bad in U; congruence|]. injection ER as <-. apply taken_pair in M. assert (p' = p) by congruence. subst. auto.
      - intros ((Z & ->) & NF & NS). exists rule, (why p rule (negb (k =? 0))). repeat split; auto. right. exists p. split; [now apply taken_pair|auto]. }
    rewrite R. destruct (pair_right p rule (0 <? k)) as [[-> F]|[[-> [NF SL]]|[-> [NF NS]]]].
    + split; [discriminate|tauto].
    + split; [discriminate|tauto].
    + rewrite told_message. tauto.
Qed.
(** Everything else: the text for a call that failed, and a last error. *)
Theorem C126_failed : forall r g cascaded b,
  matches_value r g cascaded = RFailed b <->
  b = utf8 (S_ "INTERNAL ERROR: function panicked") /\
  (r = None \/ illegible g \/ (exists s, unparsed x bad_json g s /\ In 0 s) \/
   exists rule p, r = Some rule /\ means x g p /\ ~ follows p rule (cascaded <> 0) /\
     (speechless p rule \/ In 0 (why p rule (negb (cascaded =? 0))))).
Proof.
  intros r g k b. assert (KK : (0 <? k) = negb (k =? 0)) by (destruct (N.ltb_spec 0 k), (N.eqb_spec k 0); try reflexivity; lia).
  assert (PB : forall P : Prop, P -> (RFailed panicked = RFailed b <-> b = utf8 (S_ "INTERNAL ERROR: function panicked") /\ P)).
  { intros P HP. split; [intro H; injection H as <-; split; [reflexivity|exact HP]|intros [-> _]; reflexivity]. }
  assert (TF : forall s (P : Prop), (P <-> In 0 s) -> (told s = RFailed b <-> b = utf8 (S_ "INTERNAL ERROR: function panicked") /\ P)).
  { intros s P E. rewrite E. destruct (told s) as [|b'|b'] eqn:TS.
    - exfalso. exact (proj2 (told_failed s) TS).
    - apply told_message in TS. split; [discriminate|tauto].
    - split.
      + intro H. injection H as <-. unfold told, to_c in TS. destruct (existsb (fun c => c =? 0) s) eqn:X; [|discriminate]. injection TS as <-. split; [reflexivity|].
        apply existsb_exists in X. destruct X as (y & I & Y). apply N.eqb_eq in Y. now subst.
      + intros [-> I]. apply (proj1 (told_failed s)) in I. rewrite I in TS. exact (eq_sym TS). }
  unfold MatchFfi.matches_value. destruct r as [rule|]; [|apply PB; auto].
  destruct (taken x bad_json g) as [[s|]|p] eqn:T.
  - apply TF. split.
    + intros [H|[H|[(s' & U & I)|(? & p & _ & M & _)]]]; [discriminate|apply taken_none in H; congruence|apply taken_bad in U; assert (s' = s) by congruence; subst; exact I|apply taken_pair in M; congruence].
    + intro I. right. right. left. exists s. split; [now apply taken_bad|exact I].
  - apply PB. right. left. now apply taken_none.
  - assert (R : (Some rule = None \/ illegible g \/ (exists s, unparsed x bad_json g s /\ In 0 s) \/
       exists rule0 p0, Some rule = Some rule0 /\ means x g p0 /\ ~ follows p0 rule0 (k <> 0) /\ (speechless p0 rule0 \/ In 0 (why p0 rule0 (negb (k =? 0))))) <->
       (~ follows p rule ((0 <? k) = true) /\ (speechless p rule \/ In 0 (why p rule (0 <? k))))).
    { rewrite cascaded_iff, KK. split.
      - intros [H|[H|[(s' & U & I)|(rule' & p' & ER & M & NF & S)]]]; [discriminate|apply taken_none in H; congruence|apply taken_bad in U; congruence|].
        injection ER as <-. apply taken_pair in M. assert (p' = p) by congruence. subst. auto.
      - intros [NF S]. right. right. right. exists rule, p. split; [reflexivity|]. split; [now apply taken_pair|auto]. }
    rewrite R. destruct (pair_right p rule (0 <? k)) as [[-> F]|[[-> [NF SL]]|[-> [NF NS]]]].
    + split; [discriminate|tauto].
    + apply PB. auto.
    + apply TF. tauto.
Qed.
(** What C gets is NULL or a C string. *)
Theorem C126_c_strings : forall r g cascaded b, matches_value r g cascaded = RMessage b \/ matches_value r g cascaded = RFailed b -> ~ In 0 b.
Proof.
  intros r g k b [H|H].
  - apply C126_message in H. destruct H as (rule & s & _ & -> & Z & _). intro I. exact (Z (proj1 (nul_iff s) I)).
  - apply C126_failed in H. destruct H as (-> & _). intro I. apply (proj1 (nul_iff _)) in I. cbn in I. repeat (destruct I as [I|I]; [discriminate|]). exact I.
Qed.
(** Any two flags that are not 0 are the same; so are any two marks of a rule that was inherited. *)
Theorem C126_flags : forall r n m n' m' k k', (n = 0 <-> n' = 0) -> (m = 0 <-> m' = 0) -> (k = 0 <-> k' = 0) ->
  matches_value r (GBool n m) k = matches_value r (GBool n' m') k'.
Proof.
  intros r n m n' m' k k' A B C.
  assert (E : forall i j, (i = 0 <-> j = 0) -> (0 <? i) = (0 <? j)) by (intros i j H; destruct (N.ltb_spec 0 i), (N.ltb_spec 0 j); try reflexivity; lia).
  unfold MatchFfi.matches_value, taken. now rewrite (E _ _ A), (E _ _ B), (E _ _ C).
Qed.
(** A value is equal to itself, however it is given; only not a number that is none. *)
Theorem C126_equal_to_itself : forall cascaded,
  (forall b s, from_utf8 b = Some s -> matches_value (Some REquality) (GText (Some b) (Some b)) cascaded = RNullPtr) /\
  (forall n, matches_value (Some REquality) (GU64 n n) cascaded = RNullPtr) /\
  (forall n, matches_value (Some REquality) (GI64 n n) cascaded = RNullPtr) /\
  (forall f, matches_value (Some REquality) (GF64 f f) cascaded = RNullPtr <-> f <> S754_nan) /\
  (forall n, matches_value (Some REquality) (GBool n n) cascaded = RNullPtr) /\
  (forall b, matches_value (Some REquality) (GBytes b b) cascaded = RNullPtr).
Proof.
  intro k. repeat split.
  - intros b s U. apply C126_null_is_a_match. exists REquality, (PText s s). repeat split. now constructor.
  - intro n. apply C126_null_is_a_match. exists REquality, (PU64 n n). repeat split. constructor.
  - intro n. apply C126_null_is_a_match. exists REquality, (PI64 n n). repeat split. constructor.
  - intros H ->. apply C126_null_is_a_match in H. destruct H as (r & p & E & M & F). injection E as <-. inversion M; subst. discriminate F.
  - intro NN. apply C126_null_is_a_match. exists REquality, (PF64 f f). split; [reflexivity|]. split; [constructor|]. cbn. unfold SFeqb.
    assert (SFcompare f f = Some Eq) as ->; [|reflexivity]. destruct f as [s|s| |s m e]; try congruence; destruct s; cbn; try reflexivity; rewrite Z.compare_refl, ?Pos.compare_cont_refl; reflexivity.
  - intro n. apply C126_null_is_a_match. exists REquality, (PBool (0 <? n) (0 <? n)). repeat split; rewrite ?N.ltb_lt; try constructor; try lia.
    all: rewrite ?N.ltb_lt; lia.
  - intro b. apply C126_null_is_a_match. exists REquality, (PBytes b b). repeat split. constructor.
Qed.
(** The type rules accept every value of the call, except JSON of another type or size. *)
Theorem C126_type_of_the_call : forall rule g p cascaded, type_rule rule -> means x g p -> (forall e a, p <> PJson e a) ->
  matches_value (Some rule) g cascaded = RNullPtr.
Proof.
  intros rule g p k T M NJ. apply C126_null_is_a_match. exists rule, p. split; [reflexivity|]. split; [exact M|].
  destruct p; try (exfalso; eapply NJ; reflexivity); destruct rule; try contradiction; exact I.
Qed.
End Calls.

(** A check that succeeds, one that says why not, and one that fails: bytes too short to be shown. *)
Example C126_example : forall w x why bad_json,
  matches_value w x why bad_json (Some RInteger) (GI64 1 (-7)) 0 = RNullPtr /\
  matches_value w x (fun _ _ _ => S_ "no") bad_json (Some RDecimal) (GI64 1 (-7)) 0 = RMessage (utf8 (S_ "no")) /\
  matches_value w x why bad_json (Some REquality) (GBytes [1;2;3] [1;2;4]) 0 = RFailed (utf8 (S_ "INTERNAL ERROR: function panicked")) /\
  matches_value w x (fun _ _ _ => S_ "no") bad_json (Some REquality) (GBytes (repeat 1 10) (repeat 2 10)) 0 = RMessage (utf8 (S_ "no")) /\
  matches_value w x why bad_json (Some RBoolean) (GBool 0 7) 0 = RNullPtr /\
  matches_value w x why bad_json (Some RValues) (GU64 1 2) 1 = RNullPtr /\
  matches_value w x (fun _ _ _ => S_ "no") bad_json (Some RValues) (GU64 1 2) 0 = RMessage (utf8 (S_ "no")).
Proof. intros. repeat split. Qed.
