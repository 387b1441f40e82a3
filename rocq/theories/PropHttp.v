(** Properties C23, C24, C25, C48, ...: requests and responses. *)
From Coq Require Import Ascii String List Arith NArith ZArith Lia Bool Sorted Permutation.
From Verif Require Import Base PathExp SpecPath PathExpProofs PropPath Json Text TextProofs MatchingRules Matchers JsonCompare
  Headers SpecQuery QueryProofs SpecHeaders HeaderProofs HeaderProofs2 PropHeaders SpecMatch CompareProofs PropMatch Query ContentType Http SpecHttp.
Import ListNotations.
Open Scope N_scope.
Local Opaque show_N.

(** ** C23: query parameters without rules *)
Section QueryNoRules.
Variable w : world.
Variable c : context.
Hypothesis NR : no_rules c.
Lemma query_value_nr : forall p e a i, compare_query_parameter_value w p e a i c = [] <-> e = a.
Proof.
  intros p e a i. unfold compare_query_parameter_value. rewrite (no_rules_defined c) by exact NR. cbn [str_matches].
  destruct (str_eqb_spec e a) as [->|N]; split; intro H; try reflexivity; try discriminate; congruence.
Qed.
Lemma query_elements_nr : forall p e i a, (length a <= length e)%nat ->
  (query_elements w p c i e a = [] <-> e = a).
Proof.
  intro p. induction e as [|v e IH]; intros i a L.
  - destruct a; [tauto | cbn in L; lia].
  - cbn [query_elements]. destruct a as [|y a].
    + rewrite (no_rules_defined c) by exact NR. split; discriminate.
    + cbn [length] in L. split.
      * intro H. apply app_eq_nil in H as [H1 H2]. apply query_value_nr in H1. apply IH in H2; [congruence | lia].
      * intro E. injection E as -> ->. rewrite (proj2 (query_value_nr p y y i) eq_refl). apply IH; [lia | reflexivity].
Qed.
Lemma pad_values_len : forall e n, (n <= length (pad_values e n))%nat.
Proof. intros e n. unfold pad_values. rewrite app_length, repeat_length. lia. Qed.
Lemma query_values_nr : forall k e a, match_query_values w k e a c = [] <-> e = a.
Proof.
  intros k e a. unfold match_query_values. rewrite (no_rules_defined c) by exact NR.
  destruct e as [|v e].
  - destruct a as [|y a]; [|split; discriminate]. cbn. tauto.
  - change (negb (nonempty (v :: e)) && nonempty a) with false. cbv iota.
    destruct (Nat.eqb_spec (length (v :: e)) (length a)) as [L|L].
    + rewrite app_nil_r. unfold compare_query_parameter_values, pad_values. rewrite <- L, Nat.sub_diag. cbn [repeat]. rewrite app_nil_r.
      apply query_elements_nr. lia.
    + split; [intro H; apply app_eq_nil in H as [_ H]; discriminate | intro E; exfalso; apply L; congruence].
Qed.
End QueryNoRules.
Lemma plain_texts : forall l, plain_values l = map text_value l.
Proof. reflexivity. Qed.
Lemma matched_app : forall A (r s : list (str * list A)), matched (r ++ s) <-> matched r /\ matched s.
Proof.
  intros A r s. unfold matched. split.
  - intro H. split; intros k l I; apply (H k l), in_app_iff; auto.
  - intros [H1 H2] k l I. apply in_app_iff in I as [I|I]; eauto.
Qed.
Theorem C23_query_without_rules : forall w E A c, no_rules c -> one_entry_each E -> one_entry_each A ->
  (matched (match_query w E A c) <-> same_query E A).
Proof.
  intros w E A c NR NE NA. unfold same_query, params_of. destruct E as [E|], A as [A|]; cbn [match_query one_entry_each] in *.
  - unfold match_query_maps. rewrite matched_app. split.
    + intros [M U] k. rewrite (entry_get _ k E), (entry_get _ k A). destruct (obj_get k E) as [vs|] eqn:GE.
      * assert (match_query_entry w A c k vs = []) as H.
        { apply (M k). apply in_map_iff. exists (k, vs). split; [reflexivity | exact (obj_get_in _ _ _ _ GE)]. }
        unfold match_query_entry in H. destruct (obj_get k A) as [av|]; [|discriminate].
        apply (query_values_nr w c NR) in H. f_equal. exact H.
      * destruct (obj_get k A) as [av|] eqn:GA; [|reflexivity]. exfalso.
        assert (In (k, [mkMM k KUnexpected]) (unexpected_entries E A)) as I.
        { unfold unexpected_entries. apply in_flat_map. exists (k, av). split; [exact (obj_get_in _ _ _ _ GA)|].
          cbn [fst]. rewrite GE. left. reflexivity. }
        apply (U k) in I. discriminate.
    + intro S. split.
      * intros k l I. apply in_map_iff in I as [[k' vs] [X I]]. cbn [fst snd] in X. injection X as <- <-.
        specialize (S k'). rewrite (entry_get _ k' E), (entry_get _ k' A) in S. rewrite (obj_get_nodup _ _ _ _ NE I) in S.
        unfold match_query_entry. destruct (obj_get k' A) as [av|]; [|discriminate].
        apply (query_values_nr w c NR). injection S as S. exact S.
      * intros k l I. unfold unexpected_entries in I. apply in_flat_map in I as [[k' av] [I J]]. cbn [fst] in J.
        specialize (S k'). rewrite (entry_get _ k' E), (entry_get _ k' A) in S. rewrite (obj_get_nodup _ _ _ _ NA I) in S.
        destruct (obj_get k' E); [destruct J | discriminate].
  - split.
    + intros M k. rewrite entry_get. destruct (obj_get k E) as [vs|] eqn:G; [|reflexivity]. exfalso.
      assert (@nil mismatch = [mkMM k KAbsent]) by (symmetry; apply (M k), in_map_iff; exists (k, vs); split; [reflexivity | exact (obj_get_in _ _ _ _ G)]).
      discriminate.
    + intros S k l I. apply in_map_iff in I as [[k' vs] [X I]]. specialize (S k'). rewrite entry_get, (obj_get_nodup _ _ _ _ NE I) in S. discriminate.
  - split.
    + intros M k. rewrite entry_get. destruct (obj_get k A) as [vs|] eqn:G; [|reflexivity]. exfalso.
      assert (@nil mismatch = [mkMM k KUnexpected]) by (symmetry; apply (M k), in_map_iff; exists (k, vs); split; [reflexivity | exact (obj_get_in _ _ _ _ G)]).
      discriminate.
    + intros S k l I. apply in_map_iff in I as [[k' vs] [X I]]. specialize (S k'). rewrite entry_get, (obj_get_nodup _ _ _ _ NA I) in S. discriminate.
  - split; [reflexivity | intros _ k l []].
Qed.
(** Every name that fails is named in the result, and only those. *)
Theorem C23_names_reported : forall w E A c k, no_rules c -> one_entry_each E -> one_entry_each A ->
  ((exists l, In (k, l) (match_query w E A c) /\ l <> []) <-> params_of E k <> params_of A k).
Proof.
  intros w E A c k NR NE NA. unfold params_of. destruct E as [E|], A as [A|]; cbn [match_query one_entry_each] in *.
  - unfold match_query_maps. rewrite (entry_get _ k E), (entry_get _ k A). split.
    + intros [l [I NL]]. apply in_app_iff in I as [I|I].
      * apply in_map_iff in I as [[k' vs] [X I]]. cbn [fst snd] in X. injection X as <- <-. rewrite (obj_get_nodup _ _ _ _ NE I).
        unfold match_query_entry in NL. destruct (obj_get k' A) as [av|]; [|discriminate].
        intro S. apply NL. apply (query_values_nr w c NR). injection S as S. exact S.
      * unfold unexpected_entries in I. apply in_flat_map in I as [[k' av] [I J]]. cbn [fst] in J.
        destruct (obj_get k' E) eqn:G; [destruct J|]. destruct J as [X|[]]. injection X as <- <-. rewrite G, (obj_get_nodup _ _ _ _ NA I). discriminate.
    + intro S. destruct (obj_get k E) as [vs|] eqn:GE.
      * exists (match_query_entry w A c k vs). split.
        -- apply in_app_iff. left. apply in_map_iff. exists (k, vs). split; [reflexivity | exact (obj_get_in _ _ _ _ GE)].
        -- unfold match_query_entry. destruct (obj_get k A) as [av|]; [|discriminate].
           intro H. apply (query_values_nr w c NR) in H. apply S. f_equal. exact H.
      * destruct (obj_get k A) as [av|] eqn:GA; [|congruence]. exists [mkMM k KUnexpected]. split; [|discriminate].
        apply in_app_iff. right. unfold unexpected_entries. apply in_flat_map. exists (k, av). split; [exact (obj_get_in _ _ _ _ GA)|].
        cbn [fst]. rewrite GE. left. reflexivity.
  - rewrite entry_get. split.
    + intros [l [I NL]]. apply in_map_iff in I as [[k' vs] [X I]]. cbn [fst] in X. injection X as <- <-. rewrite (obj_get_nodup _ _ _ _ NE I). discriminate.
    + intro S. destruct (obj_get k E) as [vs|] eqn:G; [|congruence]. exists [mkMM k KAbsent]. split; [|discriminate].
      apply in_map_iff. exists (k, vs). split; [reflexivity | exact (obj_get_in _ _ _ _ G)].
  - rewrite entry_get. split.
    + intros [l [I NL]]. apply in_map_iff in I as [[k' vs] [X I]]. cbn [fst] in X. injection X as <- <-. rewrite (obj_get_nodup _ _ _ _ NA I). discriminate.
    + intro S. destruct (obj_get k A) as [vs|] eqn:G; [|congruence]. exists [mkMM k KUnexpected]. split; [|discriminate].
      apply in_map_iff. exists (k, vs). split; [reflexivity | exact (obj_get_in _ _ _ _ G)].
  - split; [intros [l [[] _]] | congruence].
Qed.
(** A parameter without a value and one with an empty value are not told apart. *)
Theorem C23_no_value_is_an_empty_value : forall w c k vs vs', no_rules c -> map text_value vs = map text_value vs' ->
  matched (match_query w (Some [(k, vs)]) (Some [(k, vs')]) c).
Proof.
  intros w c k vs vs' NR E. apply C23_query_without_rules; [exact NR | | |].
  - repeat constructor. intros [].
  - repeat constructor. intros [].
  - intro j. unfold params_of. cbn [entry]. destruct (str_eqb j k); [f_equal; exact E | reflexivity].
Qed.
Example C23_example :
  let q vs := Some [(S_ "a", vs); (S_ "b", [Some (S_ "1")])] in
  one_entry_each (q [Some (S_ "1"); Some (S_ "2")]) /\
  ~ same_query (q [Some (S_ "1"); Some (S_ "2")]) (q [Some (S_ "2"); Some (S_ "1")]) /\
  ~ same_query (q [Some (S_ "1")]) (q [Some (S_ "1"); Some (S_ "1")]) /\
  same_query (Some [(S_ "a", [None])]) (Some [(S_ "a", [Some []])]) /\
  same_query None (Some []).
Proof.
  cbv zeta. split; [|split; [|split; [|split]]].
  - cbn. repeat constructor; cbn; intuition discriminate.
  - intro H. specialize (H (S_ "a")). vm_compute in H. discriminate.
  - intro H. specialize (H (S_ "a")). vm_compute in H. discriminate.
  - intro k. unfold params_of. cbn [entry]. destruct (str_eqb k (S_ "a")); reflexivity.
  - intro k. reflexivity.
Qed.

(** ** C25: methods *)
Lemma lower_ascii : forall w s pre, ascii_text s -> lower_go w pre s = map ascii_lower_char s.
Proof.
  intros w s. induction s as [|c s IH]; intros pre A; [reflexivity|]. cbn [lower_go map].
  assert (c < 128) as L by (apply A; left; reflexivity). apply N.ltb_lt in L. rewrite L.
  cbn [app]. f_equal. apply IH. intros d I. apply A. right. exact I.
Qed.
Theorem C25_methods : forall w e a, ascii_text e -> ascii_text a ->
  (match_method w e a = true <-> equal_ignoring_case e a).
Proof.
  intros w e a Ae Aa. unfold match_method, to_lower, equal_ignoring_case. rewrite !lower_ascii by assumption. apply str_eqb_eq.
Qed.
(** For any text: equality of the lower case forms, an equivalence. *)
Theorem C25_any_text : forall w e a, match_method w e a = true <-> to_lower w e = to_lower w a.
Proof. intros. apply str_eqb_eq. Qed.
Theorem C25_is_an_equivalence : forall w a b d,
  match_method w a a = true /\ match_method w a b = match_method w b a /\
  (match_method w a b = true -> match_method w b d = true -> match_method w a d = true).
Proof.
  intros w a b d. unfold match_method. split; [apply str_eqb_refl|]. split; [apply str_eqb_sym|].
  rewrite !str_eqb_eq. congruence.
Qed.
Example C25_example : ascii_text (S_ "get") /\ equal_ignoring_case (S_ "get") (S_ "GeT") /\ ~ equal_ignoring_case (S_ "GET") (S_ "PUT").
Proof. repeat split; try discriminate. intros c [<-|[<-|[<-|[]]]]; reflexivity. Qed.

(** ** C24: matched or not *)
Lemma is_nil_iff : forall A (l : list A), is_nil l = true <-> l = [].
Proof. intros A [|x l]; split; try reflexivity; discriminate. Qed.
Lemma all_nil : forall A (g : list (str * list A)), forallb (fun kv => is_nil (snd kv)) g = true <-> flat_map snd g = [].
Proof.
  intros A g. rewrite forallb_forall, flat_map_nil. split; intros H kv I.
  - apply is_nil_iff, H, I.
  - apply is_nil_iff, H, I.
Qed.
Lemma flat_matched : forall A (g : list (str * list A)), flat_map snd g = [] <-> matched g.
Proof. intros A g. rewrite flat_map_nil. unfold matched. split; [intros H k l I; exact (H _ I) | intros H [k l] I; exact (H k l I)]. Qed.
(** No comparison of the body gives an empty group of mismatches. *)
Definition groups_ok (b : body_result) : Prop := match b with BodyMismatches g => flat_map snd g <> [] | _ => True end.
Lemma group_perm : forall l g, Permutation (flat_map snd (group_mismatches l g)) (flat_map snd g ++ l).
Proof.
  induction l as [|m l IH]; intro g; [rewrite app_nil_r; apply Permutation_refl|]. cbn [group_mismatches].
  eapply Permutation_trans; [apply IH|].
  assert (Permutation (flat_map snd (match obj_get (mm_path m) g with
            | Some ms => sm_insert (mm_path m) (ms ++ [m]) g | None => g ++ [(mm_path m, [m])] end)) (flat_map snd g ++ [m])) as P.
  { destruct (obj_get (mm_path m) g) as [ms|] eqn:G.
    - clear IH. induction g as [|[k v] g IHg]; [discriminate|]. cbn [obj_get] in G. cbn [sm_insert].
      destruct (str_eqb_spec (mm_path m) k) as [E|N].
      + injection G as ->. cbn [flat_map snd]. rewrite <- !app_assoc. apply Permutation_app_head.
        apply Permutation_app_comm.
      + cbn [flat_map snd]. rewrite <- app_assoc. apply Permutation_app_head. apply IHg, G.
    - rewrite flat_map_app. cbn. apply Permutation_refl. }
  change (m :: l) with ([m] ++ l). rewrite app_assoc. apply Permutation_app_tail, P.
Qed.
(** Grouping loses and repeats nothing. *)
Theorem C24_grouping_keeps_every_mismatch : forall w x ct e a c ms,
  compare_bodies_core w x ct e a c = Ok ms ->
  exists b, compare_bodies w x ct e a c = Ok b /\ Permutation (body_mismatches b) (map MBody ms).
Proof.
  intros w x ct e a c ms H. unfold compare_bodies. rewrite H. cbn [bind]. destruct ms as [|m ms].
  - exists BodyOk. split; [reflexivity | constructor].
  - exists (BodyMismatches (group_mismatches (m :: ms) [])). split; [reflexivity|]. cbn [body_mismatches]. apply Permutation_map.
    exact (group_perm (m :: ms) []).
Qed.
Lemma compare_bodies_groups : forall w x ct e a c b, compare_bodies w x ct e a c = Ok b -> groups_ok b.
Proof.
  intros w x ct e a c b H. unfold compare_bodies in H. destruct (compare_bodies_core w x ct e a c) as [ms| |]; try discriminate.
  cbn [bind] in H. destruct ms as [|m ms]; injection H as <-; [exact I|]. cbn [groups_ok]. intro E.
  pose proof (group_perm (m :: ms) []) as P. apply (Permutation_trans (Permutation_refl _)) in P.
  assert (@nil mismatch = flat_map snd (group_mismatches (m :: ms) [])) as E' by (symmetry; exact E).
  rewrite <- E' in P. apply Permutation_nil in P. discriminate.
Qed.
Lemma content_groups : forall w x ct e a c b, match_body_content w x ct e a c = Ok b -> groups_ok b.
Proof.
  intros w x ct e a c b H. unfold match_body_content, body_problem in H.
  destruct (part_body e), (part_body a); try (injection H as <-; cbn; try exact I; discriminate); eapply compare_bodies_groups, H.
Qed.
Lemma match_body_groups : forall w x e a c hc b, match_body w x e a c hc = Ok b -> groups_ok b.
Proof.
  intros w x e a c hc b H. unfold match_body in H. destruct (content_types_compatible _ _ _ _); [eapply content_groups, H|].
  destruct (body_present _); injection H as <-; exact I.
Qed.
Theorem C24_matched_iff_no_mismatch : forall w x e a r, match_request w x e a = Ok r ->
  (all_matched r = true <-> mismatches r = []).
Proof.
  intros w x e a r H. unfold match_request in H.
  destruct (match_body w x (req_part e) (req_part a) _ _) as [b| |] eqn:B; try discriminate. cbn [bind] in H. injection H as <-.
  unfold all_matched, mismatches. cbn [r_method r_path r_body r_query r_headers].
  assert (forall l : list mismatch_kind, is_none (err_list l) = true <-> match err_list l with Some l => map MPath l | None => [] end = []) as P.
  { intros [|k l]; cbn; split; try reflexivity; discriminate. }
  assert (body_all_matched b = true <-> body_mismatches b = []) as BM.
  { destruct b as [| |g]; cbn; try (split; discriminate); [tauto|]. rewrite all_nil. split; [intros ->; reflexivity | apply map_eq_nil]. }
  rewrite !andb_true_iff, !all_nil, P, BM.
  set (pm := match err_list _ with Some l => map MPath l | None => [] end). clearbody pm.
  set (q := flat_map snd (match_query _ _ _ _)). clearbody q. set (h := flat_map snd (match_headers _ _ _ _)). clearbody h.
  split.
  - intros [[[[M ->] ->] ->] ->]. rewrite M. reflexivity.
  - intro E. apply app_eq_nil in E as [E1 E]. apply app_eq_nil in E as [E2 E]. apply app_eq_nil in E as [E3 E].
    apply app_eq_nil in E as [E4 E5]. apply map_eq_nil in E3, E4. destruct (match_method _ _ _); [auto|discriminate].
Qed.
Theorem C24_matched_iff_every_part_matches : forall w x e a r, match_request w x e a = Ok r ->
  let rs := req_rules e in
  let hc := header_context w (mkCtx false (rules_for CHeader rs)) in
  (all_matched r = true <->
   match_method w (req_method e) (req_method a) = true /\
   match_path w (req_path e) (req_path a) (mkCtx false (rules_for CPath rs)) = [] /\
   matched (match_query w (req_query e) (req_query a) (mkCtx false (rules_for CQuery rs))) /\
   matched (match_headers w (req_headers e) (req_headers a) hc) /\
   match_body w x (req_part e) (req_part a) (mkCtx false (rules_for CBody rs)) hc = Ok BodyOk).
Proof.
  intros w x e a r H rs hc. unfold match_request in H. fold rs in H. unfold ctx_for in H. fold hc in H.
  destruct (match_body w x (req_part e) (req_part a) _ hc) as [b| |] eqn:B; try discriminate. cbn [bind] in H. injection H as <-.
  unfold all_matched. cbn [r_method r_path r_body r_query r_headers]. rewrite !andb_true_iff, !all_nil, !flat_matched.
  assert (forall l : list mismatch_kind, is_none (err_list l) = true <-> l = []) as P by (intros [|k l]; cbn; split; try reflexivity; discriminate).
  rewrite P.
  assert (body_all_matched b = true <-> @Ok body_result unit b = Ok BodyOk) as BM.
  { pose proof (match_body_groups _ _ _ _ _ _ _ B) as G. destruct b as [| |g]; cbn in *; try (split; [discriminate | intro E; discriminate]); [tauto|].
    rewrite all_nil. split; [tauto | discriminate]. }
  rewrite BM. tauto.
Qed.
(** A result put together by hand may say otherwise: an empty list of path mismatches. *)
Theorem C24_hand_made_results : forall r, r_path r <> Some [] ->
  (all_matched r = true <-> mismatches r = []) .
Proof.
  intros [m p b q h] NP. unfold all_matched, mismatches. cbn [r_method r_path r_body r_query r_headers] in *.
  assert (is_none p = true <-> match p with Some l => map MPath l | None => [] end = []) as P.
  { destruct p as [[|k l]|]; cbn; split; try reflexivity; try discriminate. intros _. exfalso. apply NP. reflexivity. }
  assert (body_all_matched b = true <-> body_mismatches b = []) as BM.
  { destruct b as [| |g]; cbn; try (split; discriminate); [tauto|]. rewrite all_nil. split; [intros ->; reflexivity | apply map_eq_nil]. }
  rewrite !andb_true_iff, !all_nil, P, BM.
  set (pm := match p with Some l => map MPath l | None => [] end). clearbody pm.
  set (qq := flat_map snd q). set (hh := flat_map snd h). clearbody qq hh. split.
  - intros [[[[-> ->] ->] ->] ->]. reflexivity.
  - intro E. apply app_eq_nil in E as [E1 E]. apply app_eq_nil in E as [E2 E]. apply app_eq_nil in E as [E3 E].
    apply app_eq_nil in E as [E4 E5]. apply map_eq_nil in E3, E4. destruct m; [auto|discriminate].
Qed.
