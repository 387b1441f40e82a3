(** Properties C42 - C46: what single rules mean, rule names, duplicate removal, each-value / each-key. *)
From Coq Require Import Ascii String List Arith NArith ZArith Lia Bool Sorted Permutation.
From Verif Require Import Base PathExp SpecPath PropPath Json MatchingRules SpecRules RulesProofs RulesProofs3 PropRules
  Matchers JsonCompare SpecMatch CompareProofs CompareProofs2 CompareProofs3 PropMatch SpecValues.
Import ListNotations.
Open Scope N_scope.
Local Opaque show_N.

(** ** C42: what each rule means on one value *)
Lemma starts_with_iff : forall p s, starts_with p s = true <-> exists y, s = p ++ y.
Proof.
  induction p as [|x p IH]; intro s; cbn; [split; eauto|].
  destruct s as [|c s]; [split; [discriminate | intros [y E]; discriminate]|].
  rewrite andb_true_iff, N.eqb_eq, IH. split.
  - intros [-> [y ->]]. exists y. reflexivity.
  - intros [y E]. injection E as -> ->. eauto.
Qed.
Lemma contains_iff : forall sub s, contains sub s = true <-> has_part s sub.
Proof.
  intros sub s. unfold has_part. induction s as [|c s IH]; cbn [contains]; rewrite orb_true_iff, starts_with_iff.
  - split.
    + intros [[y E]|E]; [exists [], y; exact E | discriminate].
    + intros (x & y & E). left. destruct x; [|discriminate]. eauto.
  - rewrite IH. split.
    + intros [[y E]|(x & y & ->)]; [exists [], y; exact E | exists (c :: x), y; reflexivity].
    + intros (x & y & E). destruct x as [|c' x]; [left; eauto|]. right. injection E as -> ->. eauto.
Qed.
Lemma or_default_is : forall s d, or_default s d = format_or s d.
Proof. intros [|c s] d; reflexivity. Qed.
Lemma show_str_is : forall w a, json_to_string w a = date_text w a.
Proof. intros w []; reflexivity. Qed.
Lemma true_false_iff : forall s, str_eqb s (S_ "true") || str_eqb s (S_ "false") = true <-> true_or_false s.
Proof. intro s. rewrite orb_true_iff, !str_eqb_eq. reflexivity. Qed.
Lemma regex_ok_iff : forall w pat s, regex_ok w pat s = true <-> regex_match w pat s = Some true.
Proof. intros w pat s. unfold regex_ok. destruct (regex_match w pat s) as [[]|]; split; congruence. Qed.

Theorem C42_json_value : forall w r e a cascaded, value_rule r ->
  (json_matches w e a r cascaded = true <-> json_satisfies w r a).
Proof.
  intros w r e a cascaded V. destruct r; cbn in V; try contradiction; cbn [json_matches json_satisfies].
  - apply regex_ok_iff.
  - rewrite show_str_is, or_default_is. reflexivity.
  - rewrite show_str_is, or_default_is. reflexivity.
  - rewrite show_str_is, or_default_is. reflexivity.
  - apply contains_iff.
  - destruct a; cbn; split; congruence.
  - unfold whole_number. destruct a as [| |[n|z|f]| | |]; cbn [num_is_i64 num_is_u64]; rewrite ?orb_true_r;
    (split; [intro H; try discriminate; eauto | intros [[x E]|[x E]]; try discriminate; try reflexivity]).
  - unfold fractional_number. destruct a as [| |[n|z|f]| | |]; cbn; (split; [intro H; try discriminate; eauto | intros [x E]; congruence]).
  - destruct a; split; congruence.
  - destruct a; cbn [type_of]; try (split; [intro H; discriminate | intros [H|[x [H _]]]; discriminate]).
    + split; auto.
    + rewrite true_false_iff. split; [intro H; right; eauto | intros [H|[x [H T]]]; [discriminate | injection H as ->; exact T]].
  - unfold blank_json. destruct a as [| | |[|c s]|[|x l]|[|x l]]; cbn; (split; [intros H; try discriminate; intros [B|[B|[B|B]]]; discriminate | intro H; try reflexivity; exfalso; apply H; tauto]).
  - destruct a; (split; [intro H; try discriminate; eauto | intros [x [E H]]; try discriminate; injection E as ->; exact H]).
Qed.

Lemma unsigned_iff : forall s, (exists n, parse_usize s = Some n) <-> unsigned_number s.
Proof.
  intro s. unfold unsigned_number, parse_usize. split.
  - intros [n H].
    set (ds := match s with c :: s' => if c =? 43 then s' else s | [] => s end) in *.
    exists ds. assert (s = ds \/ s = S_ "+" ++ ds) as D.
    { subst ds. destruct s as [|c s]; [left; reflexivity|]. destruct (N.eqb_spec c 43) as [->|]; [right | left]; reflexivity. }
    split; [exact D|]. clear D. destruct ds as [|c ds']; [discriminate|].
    destruct (all_digits (c :: ds')) eqn:A; [|discriminate]. destruct (dec_value (c :: ds') 0 <? two64) eqn:B; [|discriminate].
    split; [split; [discriminate|]|].
    + apply Forall_forall. intros x I. unfold all_digits in A. rewrite forallb_forall in A. apply is_digit_range, A, I.
    + apply N.ltb_lt in B. exact B.
  - intros (ds & D & [NE DO] & B).
    assert (A : all_digits ds = true).
    { apply forallb_forall. intros x I. rewrite Forall_forall in DO. apply DO in I. unfold is_digit. apply andb_true_iff. split; apply N.leb_le; lia. }
    assert (match s with c :: s' => if c =? 43 then s' else s | [] => s end = ds) as ->.
    { destruct D as [->| ->]; [|reflexivity]. destruct ds as [|c ds]; [reflexivity|].
      inversion DO; subst. destruct (N.eqb_spec c 43); [lia | reflexivity]. }
    exists (dec_value ds 0). destruct ds; [congruence|]. rewrite A. apply N.ltb_lt in B.
    change (2 ^ 64) with two64 in B. rewrite B. reflexivity.
Qed.
Lemma in_class_iff : forall st c, match_status_code c st = true <-> in_class st c.
Proof.
  intros st c. destruct st; cbn; rewrite ?andb_true_iff, ?N.leb_le, ?N.ltb_lt; try lia.
  unfold code_in. rewrite existsb_exists. split; [intros [x [I E]]; apply N.eqb_eq in E; subst; exact I | intro I; exists c; split; [exact I | apply N.eqb_refl]].
Qed.
Theorem C42_text_value : forall w r e a, text_rule r ->
  (str_matches w e a r false = true <-> text_satisfies w r e a).
Proof.
  intros w r e a T. destruct r; cbn in T; try contradiction; cbn [str_matches text_satisfies];
  try (split; reflexivity || (intros; exact I)); rewrite ?or_default_is; try reflexivity.
  - apply str_eqb_eq.
  - apply regex_ok_iff.
  - apply contains_iff.
  - rewrite <- unsigned_iff. destruct (parse_usize a) eqn:E; split; try discriminate; eauto. intros [n H]; discriminate.
  - cbn. split; [discriminate | contradiction].
  - apply true_false_iff.
  - unfold parse_u16. split.
    + destruct (parse_usize a) as [n|] eqn:E; [|discriminate]. destruct (N.ltb_spec n 65536); [|discriminate].
      intro H1. exists n. split; [apply unsigned_iff; eauto|]. split; [reflexivity|]. split; [assumption | apply in_class_iff, H1].
    + intros (c & _ & E & L & C). rewrite E. apply N.ltb_lt in L. rewrite L. apply in_class_iff, C.
  - destruct a; cbn; split; congruence.
Qed.
(** On text the integer rule refuses negative whole numbers, unlike on JSON numbers. *)
Theorem C42_why_unsigned : forall w,
  json_matches w (JNum (PosInt 1)) (JNum (NegInt (-5))) RInteger false = true /\
  str_matches w (S_ "1") (S_ "-5") RInteger false = false.
Proof. intro w. split; reflexivity. Qed.
(** Whole arrays and objects. *)
Theorem C42_not_empty_collections : forall (eqb : json -> json -> bool) e a em am cascaded,
  (list_matches eqb e a RNotEmpty cascaded = true <-> a <> []) /\
  (map_matches eqb em am RNotEmpty cascaded = true <-> am <> []).
Proof. intros. cbn. split; [destruct a | destruct am]; cbn; split; congruence. Qed.
Example C42_example : forall w,
  value_rule RInteger /\ json_satisfies w RInteger (JNum (NegInt (-5))) /\ ~ json_satisfies w RInteger (JNum (Float SpecFloat.S754_nan)) /\
  text_satisfies w RInteger (S_ "1") (S_ "+12") /\ ~ text_satisfies w RBoolean (S_ "true") (S_ "True").
Proof.
  intro w. split; [exact I|]. split; [right; eauto|]. split; [intros [[x E]|[x E]]; discriminate|]. split.
  - exists (S_ "12"). split; [right; reflexivity|]. split; [split; [discriminate|repeat constructor; cbv; discriminate] | reflexivity].
  - intros [E|E]; discriminate.
Qed.

(** ** C43: rule and category names *)
Theorem C43_rule_names : forall w m k r,
  obj_get (S_ "match") m = Some (JStr k) -> named m k r -> rule_from_json w (JObj m) = Ok r.
Proof.
  intros w m k r M NM. unfold rule_from_json. destruct (json_depth (JObj m)) eqn:D; [cbn in D; lia|].
  cbn [rule_from_json_fuel]. unfold from_json_with. rewrite M. change (json_to_string w (JStr k)) with k.
  unfold rule_create, get_format, req.
  destruct NM; unfold attr in *;
  repeat match goal with H : In _ _ |- _ => cbn [In] in H end;
  repeat match goal with H : _ \/ _ |- _ => destruct H as [H|H]; try contradiction; try subst end;
  repeat match goal with H : obj_get _ _ = _ |- _ => rewrite H; clear H end;
  try match goal with H : (_, _) = (_, _) |- _ => injection H as <- <- end; try reflexivity.
Qed.
Theorem C43_unknown_rule_names : forall w m k,
  obj_get (S_ "match") m = Some (JStr k) -> ~ In k known_names -> exists e, rule_from_json w (JObj m) = Err e.
Proof.
  intros w m k M NI. unfold rule_from_json. destruct (json_depth (JObj m)) eqn:D; [cbn in D; lia|].
  cbn [rule_from_json_fuel]. unfold from_json_with. rewrite M. change (json_to_string w (JStr k)) with k.
  unfold rule_create.
  assert (forall x, In x known_names -> str_eqb k x = false) as F.
  { intros x I. apply str_eqb_neq. intros ->. exact (NI I). }
  rewrite !F by (unfold known_names; cbn [map In]; tauto). cbn [orb]. eauto.
Qed.
Theorem C43_category_names : forall w s n c, In (n, c) category_names -> to_lower w s = S_ n -> category_from w s = c.
Proof.
  intros w s n c I E. unfold category_from. rewrite E. unfold category_names in I. cbn [In] in I.
  repeat (destruct I as [I|I]; [injection I as <- <-; reflexivity|]). contradiction.
Qed.
Example C43_example : forall w,
  rule_from_json w (JObj [(S_ "match", JStr (S_ "min-type")); (S_ "min", JNum (PosInt 2))]) = Ok (RMinType 2) /\
  named [(S_ "match", JStr (S_ "min-type")); (S_ "min", JNum (PosInt 2))] (S_ "min-type") (RMinType 2).
Proof. intro w. split; [reflexivity|]. apply nm_min; [cbn; tauto | reflexivity]. Qed.

(** ** C44: adding rules and removing duplicates *)
Lemma unique_in : forall l seen r, In r (unique_from seen l) -> In r l.
Proof.
  induction l as [|x l IH]; intros seen r I; [exact I|]. cbn [unique_from] in I. destruct (existsb _ seen); [right; eapply IH, I|].
  destruct I as [->|I]; [left; reflexivity | right; eapply IH, I].
Qed.
Lemma unique_complete : forall l seen r, Forall rep_ok seen -> Forall rep_ok l -> In r l ->
  exists r', (In r' seen \/ In r' (unique_from seen l)) /\ rule_eqb r' r = true.
Proof.
  induction l as [|x l IH]; intros seen r Ws Wl I; [destruct I|]. inversion Wl as [|? ? Wx Wl']; subst. cbn [unique_from].
  destruct (existsb (fun y => rule_eqb y x) seen) eqn:E.
  - destruct I as [->|I]; [|apply IH; assumption].
    apply existsb_exists in E as [y [Iy Ey]]. exists y. auto.
  - destruct I as [->|I].
    + exists r. split; [right; left; reflexivity|]. apply C13_equality_reflexive, Wx.
    + destruct (IH (x :: seen) r) as [r' [[[->|A]|A] Q]]; auto.
      * exists r'. split; [right; left; reflexivity | exact Q].
      * exists r'. auto.
      * exists r'. split; [right; right; exact A | exact Q].
Qed.
Lemma unique_fresh : forall l seen r r', In r seen -> In r' (unique_from seen l) -> rule_eqb r r' = false.
Proof.
  induction l as [|x l IH]; intros seen r r' I J; [destruct J|]. cbn [unique_from] in J.
  destruct (existsb (fun y => rule_eqb y x) seen) eqn:E; [eapply IH; eassumption|].
  destruct J as [<-|J]; [|exact (IH (x :: seen) r r' (or_intror I) J)].
  destruct (rule_eqb r x) eqn:Q; [|reflexivity]. exfalso.
  assert (existsb (fun y => rule_eqb y x) seen = true) by (apply existsb_exists; eauto). congruence.
Qed.
Lemma unique_pairwise : forall l seen, ForallOrdPairs (fun a b => rule_eqb a b = false) (unique_from seen l).
Proof.
  induction l as [|x l IH]; intro seen; cbn [unique_from]; [constructor|]. destruct (existsb _ seen); [apply IH|].
  constructor; [|apply IH]. apply Forall_forall. intros y J. exact (unique_fresh l (x :: seen) x y (or_introl eq_refl) J).
Qed.
(** The rules that remain are rules of the list, no two of them are equal, every
    rule of the list is equal to one that remains, and the combination is unchanged. *)
Theorem C44_remove_duplicates : forall rl, Forall rep_ok (rl_rules rl) ->
  let rl' := remove_duplicates rl in
  rl_logic rl' = rl_logic rl /\ rl_cascaded rl' = rl_cascaded rl /\
  (forall r, In r (rl_rules rl') -> In r (rl_rules rl)) /\
  ForallOrdPairs (fun a b => rule_eqb a b = false) (rl_rules rl') /\
  (forall r, In r (rl_rules rl) -> exists r', In r' (rl_rules rl') /\ rule_eqb r' r = true).
Proof.
  intros rl W. cbn. split; [reflexivity|]. split; [reflexivity|]. split; [intros r; apply unique_in|].
  split; [apply unique_pairwise|]. intros r I. destruct (unique_complete (rl_rules rl) [] r) as [r' [[[]|A] E]]; auto. eauto.
Qed.
Theorem C44_remove_duplicates_is_stable : forall rl, Forall rep_ok (rl_rules rl) ->
  remove_duplicates (remove_duplicates rl) = remove_duplicates rl.
Proof.
  intros rl W. unfold remove_duplicates at 1. cbn [rl_rules rl_logic rl_cascaded remove_duplicates].
  assert (forall l seen, ForallOrdPairs (fun a b => rule_eqb a b = false) l ->
    (forall x y, In x seen -> In y l -> rule_eqb x y = false) -> unique_from seen l = l) as U.
  { induction l as [|x l IH]; intros seen P S; [reflexivity|]. inversion P as [|? ? P1 P2]; subst. cbn [unique_from].
    destruct (existsb (fun y => rule_eqb y x) seen) eqn:E.
    - apply existsb_exists in E as [y [I E]]. rewrite (S y x) in E; [discriminate | exact I | left; reflexivity].
    - f_equal. apply IH; [exact P2|]. intros a b [->|Ia] Ib; [rewrite Forall_forall in P1; apply P1, Ib|].
      apply S; [exact Ia | right; exact Ib]. }
  rewrite U; [reflexivity | apply unique_pairwise | intros x y []].
Qed.
Example C44_example : rl_rules (remove_duplicates (mkRules [RType; RNull; RType; RRegex (S_ "a"); RNull] Or false)) = [RType; RNull; RRegex (S_ "a")].
Proof. reflexivity. Qed.

(** ** C45, C46: rules about the entries of a collection *)
Lemma self_accepts : forall p, concrete p -> accepts (path_tokens p) (to_vec p).
Proof.
  intro p. unfold concrete, to_vec. induction (path_tokens p) as [|t ts IH]; intro C; [constructor|].
  inversion C; subst. cbn [map]. constructor; [|apply IH; assumption].
  destruct t; cbn; auto. apply parse_usize_show. assumption.
Qed.
Lemma star_accepts : forall p k, concrete p -> accepts (path_tokens (join p (S_ "*"))) (to_vec (join p k)).
Proof.
  intros p k C. rewrite to_vec_join.
  assert (path_tokens (join p (S_ "*")) = path_tokens p ++ [TStar]) as -> by reflexivity.
  pose proof (self_accepts p C) as A. pose proof (vec_len p) as L. revert A L. generalize (to_vec p). generalize (path_tokens p).
  induction l as [|t ts IH]; intros l' A L; destruct l' as [|x l']; try discriminate L; cbn [app].
  - constructor; [exact I | constructor].
  - inversion A; subst. constructor; [assumption|]. apply IH; [assumption|]. injection L as L. exact L.
Qed.

Section EachValue.
Variables (w : world) (p : docpath) (d : definition) (al : bool).
Hypothesis Conc : concrete p.
Hypothesis Short : (length (path_tokens p) <= 57)%nat.
Hypothesis Res : Forall is_resolved (def_rules d).
Hypothesis Some_ : def_rules d <> [].
Let c' : context := mkCtx al (each_value_rules p d).
Lemma ev_only : only_rule c' (join p (S_ "*")) (mkRules (resolved_rules d) And false).
Proof. split; reflexivity. Qed.
Lemma ev_short : (length (path_tokens (join p (S_ "*"))) <= 58)%nat.
Proof. rewrite join_len. lia. Qed.
Lemma resolved_in : forall r, In r (resolved_rules d) <-> In (inl r) (def_rules d).
Proof.
  intro r. unfold resolved_rules. rewrite in_flat_map. split.
  - intros [[x|n] [I J]]; [destruct J as [->|[]]; exact I | destruct J].
  - intro I. exists (inl r). split; [exact I | left; reflexivity].
Qed.
Lemma resolved_some : resolved_rules d <> [].
Proof.
  unfold resolved_rules. destruct (def_rules d) as [|[r|n] l]; [congruence | discriminate|]. inversion Res; contradiction.
Qed.
Lemma unresolved_none : unresolved_mismatches p d = [].
Proof.
  unfold unresolved_mismatches. apply flat_map_nil. intros [r|n] I; [reflexivity|].
  rewrite Forall_forall in Res. destruct (Res _ I).
Qed.
Lemma ev_scalar : forall k x y, is_scalar x ->
  compare_json w (join p k) x y c' = [] <-> (forall r, In (inl r) (def_rules d) -> json_matches w x y r false = true).
Proof.
  intros k x y S.
  pose proof (C14_body_scalar_single_entry w c' _ _ (join p k) x y ev_only ev_short (star_accepts p k Conc) resolved_some S) as E.
  cbv zeta in E. rewrite E. cbn [rl_logic rl_rules]. rewrite !join_len, Nat.ltb_irrefl.
  split; intros H r I; apply H, resolved_in, I.
Qed.
Lemma ev_defined : forall k, ctx_matcher_is_defined c' (join p k) = true.
Proof. intro k. eapply single_defined; [exact ev_only | exact ev_short | apply star_accepts, Conc]. Qed.
End EachValue.

(** One each-value rule at the location of an array: each element of the actual
    array satisfies each rule of the definition, the expected value being the one at
    its position or else the first. *)
Theorem C45_each_value_on_arrays_single_entry : forall w c q d lg cs p e a,
  only_rule c q (mkRules [REachValue d] lg cs) -> accepts (path_tokens q) (to_vec p) ->
  length (path_tokens q) = length (path_tokens p) -> (length (path_tokens p) <= 57)%nat -> concrete p ->
  Forall is_resolved (def_rules d) -> def_rules d <> [] -> e <> [] -> Forall is_scalar e ->
  (compare_json w p (JArr e) (JArr a) c = [] <->
   forall i x y, nth_or_first e i = Some x -> nth_error a i = Some y ->
     forall r, In (inl r) (def_rules d) -> json_matches w x y r false = true).
Proof.
  intros w c q d lg cs p e a O A L Sh C Rs Sm NE Sc.
  pose proof (C14_body_array_single_entry w c q _ p e a O ltac:(lia) A ltac:(discriminate)) as E. cbv zeta in E.
  rewrite E. clear E. cbn [rl_logic rl_rules]. rewrite L, Nat.ltb_irrefl.
  assert (compare_lists_with_matchingrule json json_eqb clone_with (compare_json w) (REachValue d) p e a c false = [] <->
    forall i x y, nth_or_first e i = Some x -> nth_error a i = Some y ->
     forall r, In (inl r) (def_rules d) -> json_matches w x y r false = true) as V.
  { unfold compare_lists_with_matchingrule. destruct e as [|f e']; [congruence|]. set (e := f :: e') in *.
    rewrite (unresolved_none p d Rs). cbn [app]. unfold match_list_contents.
    rewrite nth_elements by (intro j; apply (ev_defined p d (allow c) C Sh)).
    split.
    - intros H i x y Ex Ey.
      assert (i < length a)%nat as Li by (apply nth_error_Some; congruence).
      apply (ev_scalar w p d (allow c) C Sh Rs Sm (show_N (0 + N.of_nat i))).
      + rewrite Forall_forall in Sc. apply Sc. unfold nth_or_first in Ex. destruct (nth_error e i) eqn:En; [injection Ex as <-; eapply nth_error_In, En|].
        injection Ex as <-. left; reflexivity.
      + apply H; [|exact Ey]. rewrite pad_nth by exact Li. rewrite Ex. reflexivity.
    - intros H n x y Ex Ey.
      assert (n < length a)%nat as Li by (apply nth_error_Some; congruence).
      rewrite pad_nth in Ex by exact Li. destruct (nth_or_first e n) as [x0|] eqn:Ex0; [|discriminate]. injection Ex as ->.
      apply (ev_scalar w p d (allow c) C Sh Rs Sm).
      + rewrite Forall_forall in Sc. apply Sc. unfold nth_or_first in Ex0. destruct (nth_error e n) eqn:En; [injection Ex0 as <-; eapply nth_error_In, En|].
        injection Ex0 as <-. left; reflexivity.
      + exact (H _ _ _ Ex0 Ey). }
  destruct lg.
  - rewrite <- V. split; [intro H; apply H; left; reflexivity | intros H r [<-|[]]; exact H].
  - rewrite <- V. split; [intros [r [[<-|[]] H]]; exact H | intro H; eexists; split; [left; reflexivity | exact H]].
Qed.
(** On an object: each value of the actual object, the expected value being the one
    with its key or else the first; which keys there are does not matter, unless the
    expected object is empty and unexpected keys are not allowed. *)
Definition with_key_or_first (e : list (str * json)) (k : str) : option json :=
  match obj_get k e with
  | Some x => Some x
  | None => match e with (_, x) :: _ => Some x | [] => None end
  end.
Definition object_expected (al : bool) (e a : list (str * json)) : Prop := e = [] -> al = false -> a = [].
Theorem C45_each_value_on_objects_single_entry : forall w c q d lg cs p e a,
  only_rule c q (mkRules [REachValue d] lg cs) -> accepts (path_tokens q) (to_vec p) ->
  length (path_tokens q) = length (path_tokens p) -> (length (path_tokens p) <= 57)%nat -> concrete p ->
  Forall is_resolved (def_rules d) -> def_rules d <> [] -> Forall (fun kv => is_scalar (snd kv)) e ->
  (compare_json w p (JObj e) (JObj a) c = [] <->
   object_expected (allow c) e a /\
   forall k x y, with_key_or_first e k = Some x -> In (k, y) a ->
     forall r, In (inl r) (def_rules d) -> json_matches w x y r false = true).
Proof.
  intros w c q d lg cs p e a O A L Sh C Rs Sm Sc.
  rewrite compare_unfold. cbn [compare_step]. unfold compare_maps, object_expected.
  destruct (negb (nonempty e) && negb (allow c) && nonempty a) eqn:Em.
  { apply andb_true_iff in Em as [Em Ne]. apply andb_true_iff in Em as [Ee Al].
    split; [discriminate|]. intros [H _]. destruct e; [|discriminate]. destruct (allow c); [discriminate|].
    rewrite (H eq_refl eq_refl) in Ne. discriminate. }
  rewrite (single_defined c q _ O ltac:(lia) p A), (single_best c q _ O ltac:(lia) p A).
  unfold as_cascaded. cbn [rl_rules rl_cascaded]. rewrite L, Nat.ltb_irrefl. cbn [flat_map]. rewrite app_nil_r.
  unfold compare_maps_with_matchingrule. cbn [negb is_values_matcher andb].
  rewrite (unresolved_none p d Rs). cbn [app]. rewrite flat_map_nil.
  change (clone_with c (each_value_rules p d)) with (mkCtx (allow c) (each_value_rules p d)).
  assert (forall k x, with_key_or_first e k = Some x -> is_scalar x) as SX.
  { intros k x E. rewrite Forall_forall in Sc. unfold with_key_or_first in E. destruct (obj_get k e) eqn:G.
    - injection E as <-. apply obj_get_in in G. exact (Sc _ G).
    - destruct e as [|[k0 x0] e']; [discriminate|]. injection E as <-. apply (Sc (k0, x0)). left; reflexivity. }
  split.
  - intro H. split.
    { intros -> Al. rewrite Al in Em. destruct a; [reflexivity | discriminate]. }
    intros k x y E I. apply (ev_scalar w p d (allow c) C Sh Rs Sm k x y (SX _ _ E)).
    specialize (H _ I). cbn [fst snd] in H. unfold with_key_or_first in E.
    destruct (obj_get k e); [injection E as ->; exact H|]. destruct e as [|[k0 x0] e']; [discriminate|]. injection E as ->. exact H.
  - intros [_ H] [k y] I. cbn [fst snd]. unfold with_key_or_first in H, SX.
    specialize (fun x => H k x y). specialize (SX k).
    destruct (obj_get k e) as [x|] eqn:G.
    + apply (ev_scalar w p d (allow c) C Sh Rs Sm k x y (SX _ eq_refl)). apply H; [reflexivity | exact I].
    + destruct e as [|[k0 x0] e']; [reflexivity|].
      apply (ev_scalar w p d (allow c) C Sh Rs Sm k x0 y (SX _ eq_refl)). apply H; [reflexivity | exact I].
Qed.
(** A values rule on an object: each value equals the expected one with its key, or else the first. *)
Theorem C45_values_rule_on_objects_single_entry : forall w c q lg cs p e a,
  only_rule c q (mkRules [RValues] lg cs) -> accepts (path_tokens q) (to_vec p) ->
  length (path_tokens q) = length (path_tokens p) -> (length (path_tokens p) <= 58)%nat ->
  Forall (fun kv => is_scalar (snd kv)) e ->
  (compare_json w p (JObj e) (JObj a) c = [] <->
   object_expected (allow c) e a /\
   forall k x y, with_key_or_first e k = Some x -> In (k, y) a -> same_scalar x y).
Proof.
  intros w c q lg cs p e a O A L Sh Sc.
  rewrite compare_unfold. cbn [compare_step]. unfold compare_maps, object_expected.
  destruct (negb (nonempty e) && negb (allow c) && nonempty a) eqn:Em.
  { apply andb_true_iff in Em as [Em Ne]. apply andb_true_iff in Em as [Ee Al].
    split; [discriminate|]. intros [H _]. destruct e; [|discriminate]. destruct (allow c); [discriminate|].
    rewrite (H eq_refl eq_refl) in Ne. discriminate. }
  rewrite (single_defined c q _ O ltac:(lia) p A), (single_best c q _ O ltac:(lia) p A).
  unfold as_cascaded. cbn [rl_rules rl_cascaded]. rewrite L, Nat.ltb_irrefl. cbn [flat_map]. rewrite app_nil_r.
  unfold compare_maps_with_matchingrule. cbn [negb is_values_matcher andb app]. rewrite flat_map_nil.
  assert (forall k x, with_key_or_first e k = Some x -> is_scalar x) as SX.
  { intros k x E. rewrite Forall_forall in Sc. unfold with_key_or_first in E. destruct (obj_get k e) eqn:G.
    - injection E as <-. apply obj_get_in in G. exact (Sc _ G).
    - destruct e as [|[k0 x0] e']; [discriminate|]. injection E as <-. apply (Sc (k0, x0)). left; reflexivity. }
  assert (forall k x y, is_scalar x -> compare_json w (join p k) x y c = [] <-> same_scalar x y) as V.
  { intros k x y S. pose proof (C14_body_scalar_single_entry w c q _ (join p k) x y O ltac:(lia) (accepts_join _ _ k A) ltac:(discriminate) S) as E.
    cbv zeta in E. rewrite E. cbn [rl_logic rl_rules]. rewrite <- (scalar_eqb x y S).
    destruct lg; [split; [intro H; apply (H RValues); left; reflexivity | intros H r [<-|[]]; exact H]|].
    split; [intros [r [[<-|[]] H]]; exact H | intro H; exists RValues; split; [left; reflexivity | exact H]]. }
  split.
  - intro H. split.
    { intros -> Al. rewrite Al in Em. destruct a; [reflexivity | discriminate]. }
    intros k x y E I. apply (V k x y (SX _ _ E)).
    specialize (H _ I). cbn [fst snd] in H. unfold with_key_or_first in E.
    destruct (obj_get k e); [injection E as ->; exact H|]. destruct e as [|[k0 x0] e']; [discriminate|]. injection E as ->. exact H.
  - intros [_ H] [k y] I. cbn [fst snd]. unfold with_key_or_first in H, SX.
    specialize (fun x => H k x y). specialize (SX k).
    destruct (obj_get k e) as [x|] eqn:G.
    + apply (V k x y (SX _ eq_refl)). apply H; [reflexivity | exact I].
    + destruct e as [|[k0 x0] e']; [reflexivity|].
      apply (V k x0 y (SX _ eq_refl)). apply H; [reflexivity | exact I].
Qed.
Definition ev_ctx (r : rule) : context := mkCtx false (mkCat CBody [(path_root, mkRules [r] And false)]).
Example C45_example : forall w,
  only_rule (ev_ctx (REachValue (mkDef [] VUnknown [inl RInteger] []))) path_root (mkRules [REachValue (mkDef [] VUnknown [inl RInteger] [])] And false) /\
  compare_json w path_root (JArr [num_of 1]) (JArr [num_of 7; num_of 8]) (ev_ctx (REachValue (mkDef [] VUnknown [inl RInteger] []))) = [] /\
  compare_json w path_root (JArr [num_of 1]) (JArr [num_of 7; JNull]) (ev_ctx (REachValue (mkDef [] VUnknown [inl RInteger] []))) <> [] /\
  compare_json w path_root (JObj [(S_ "a", num_of 1)]) (JObj [(S_ "b", num_of 7)]) (ev_ctx (REachValue (mkDef [] VUnknown [inl RInteger] []))) = [].
Proof. intro w. repeat split; try discriminate; vm_compute; try discriminate; reflexivity. Qed.

(** ** C46: each-key: each key of the actual object satisfies each rule; keys may differ from
    the expected ones. The values are not compared by it (see below). *)
Theorem C46_each_key_single_entry : forall w c q d lg cs p e a,
  only_rule c q (mkRules [REachKey d] lg cs) -> accepts (path_tokens q) (to_vec p) ->
  length (path_tokens q) = length (path_tokens p) -> (length (path_tokens p) <= 58)%nat ->
  Forall is_resolved (def_rules d) -> Forall (fun kv => is_scalar (snd kv)) e ->
  (compare_json w p (JObj e) (JObj a) c = [] <->
   object_expected (allow c) e a /\
   forall k y, In (k, y) a -> forall r, In (inl r) (def_rules d) -> str_matches w [] k r false = true).
Proof.
  intros w c q d lg cs p e a O A L Sh Rs Sc.
  rewrite compare_unfold. cbn [compare_step]. unfold compare_maps, object_expected.
  destruct (negb (nonempty e) && negb (allow c) && nonempty a) eqn:Em.
  { apply andb_true_iff in Em as [Em Ne]. apply andb_true_iff in Em as [Ee Al].
    split; [discriminate|]. intros [H _]. destruct e; [|discriminate]. destruct (allow c); [discriminate|].
    rewrite (H eq_refl eq_refl) in Ne. discriminate. }
  rewrite (single_defined c q _ O ltac:(lia) p A), (single_best c q _ O ltac:(lia) p A).
  unfold as_cascaded. cbn [rl_rules rl_cascaded]. rewrite L, Nat.ltb_irrefl. cbn [flat_map]. rewrite app_nil_r.
  unfold compare_maps_with_matchingrule. cbn [negb is_values_matcher andb map_matches app].
  assert (cat_rules (matchers_for_exact_path c p) = [(q, mkRules [REachKey d] lg cs)]) as X.
  { destruct O as [Nm Ru]. unfold matchers_for_exact_path. rewrite Nm. unfold cat_filter. cbn [cat_rules]. rewrite Ru. cbn [filter fst].
    unfold matches_path_exactly. rewrite vec_len, L, N.eqb_refl. cbn [andb].
    replace (matches_path q (to_vec p)) with true; [reflexivity|]. symmetry.
    apply matches_prefix_short; [|exact A].
    assert (forall ts, (exact_steps ts <= length ts)%nat) as B by (induction ts as [|[] ts IH]; cbn; lia). specialize (B (path_tokens q)). lia. }
  unfold match_keys, direct_entry_matcher, direct_any_matcher, as_rule_list, cat_is_empty. rewrite X.
  cbn [rl_rules existsb entry_rule orb negb app].
  rewrite (single_best c q _ O ltac:(lia) p A). unfold as_cascaded. cbn [rl_rules flat_map]. rewrite app_nil_r.
  assert (compare_entries json (compare_json w) p e a c = []) as Z.
  { unfold compare_entries. apply flat_map_nil. intros [k x] I. cbn [fst snd]. destruct (obj_get k a) as [y|]; [|reflexivity].
    rewrite Forall_forall in Sc. pose proof (Sc _ I) as Sx. cbn [snd] in Sx.
    pose proof (C14_body_scalar_single_entry w c q _ (join p k) x y O ltac:(lia) (accepts_join _ _ k A) ltac:(discriminate) Sx) as E.
    cbv zeta in E. apply E. cbn [rl_logic rl_rules].
    destruct lg; [intros r [<-|[]]; reflexivity | eexists; split; [left; reflexivity | reflexivity]]. }
  rewrite Z, app_nil_r. cbn [each_key_mismatches]. rewrite flat_map_nil. split.
  - intro H. split; [intros -> Al; rewrite Al in Em; destruct a; [reflexivity | discriminate]|].
    intros k y I r Ir. specialize (H _ Ir). cbn beta iota in H. rewrite flat_map_nil in H.
    assert (In k (keys a)) as Ik by (apply (in_map fst) in I; exact I). specialize (H k Ik).
    destruct (str_matches w [] k r false); [reflexivity | discriminate].
  - intros [_ H] [r|n] Ir; [|rewrite Forall_forall in Rs; destruct (Rs _ Ir)].
    apply flat_map_nil. intros k Ik. apply in_map_iff in Ik as [[k' y] [<- Ik]]. cbn [fst]. rewrite (H _ _ Ik r Ir). reflexivity.
Qed.
(** With an each-key rule alone, any value is accepted for an expected scalar. *)
Theorem C46_values_are_not_compared : forall w, let d := mkDef [] VUnknown [inl RType] [] in
  compare_json w path_root (JObj [(S_ "a", num_of 1)]) (JObj [(S_ "a", JArr [JNull])]) (ev_ctx (REachKey d)) = [].
Proof. intro w. vm_compute. reflexivity. Qed.
Example C46_example : forall w, let d := mkDef [] VUnknown [inl (RInclude (S_ "id"))] [] in
  compare_json w path_root (JObj [(S_ "id1", num_of 1)]) (JObj [(S_ "id2", num_of 1); (S_ "xid", num_of 1)]) (ev_ctx (REachKey d)) = [] /\
  compare_json w path_root (JObj [(S_ "id1", num_of 1)]) (JObj [(S_ "id2", num_of 1); (S_ "x", num_of 1)]) (ev_ctx (REachKey d)) <> [].
Proof. intro w. split; vm_compute; [reflexivity | discriminate]. Qed.
