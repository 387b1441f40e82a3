(** Proofs about the builders of the consumer DSL: query parameters and headers after the calls, and the rules for a name. *)
From Coq Require Import Ascii String List Arith NArith ZArith Lia Bool Permutation Sorted.
From Verif Require Import Base PathExp PathExpProofs SpecPath PropPath Json Text TextProofs MatchingRules RulesV2 SpecRules Matchers JsonCompare SpecMatch SpecValues
  CompareProofs2 SpecBody BodyProofs Headers Query ContentType SpecXml SpecQuery SpecHeaders SpecHttp Http QueryProofs PropHttp Pattern SpecPattern PatternProofs PropPattern
  SpecParams PropParams PropParams2 Generators Builder SpecBuilder BuilderProofs.
Import ListNotations.
Open Scope N_scope.
Local Opaque show_N.

(** ** Query parameters *)
Lemma push_param_get : forall k n v m, obj_get k (push_param n v m) =
  if str_eqb n k then Some (match obj_get k m with Some vs => vs | None => [] end ++ [v]) else obj_get k m.
Proof.
  intros k n v m. induction m as [|[k' vs] m IH]; cbn [push_param obj_get].
  - destruct (str_eqb_spec n k) as [->|Ne]; [rewrite str_eqb_refl; reflexivity|]. destruct (str_eqb_spec k n) as [->|]; congruence.
  - destruct (str_eqb_spec n k') as [->|Ne]; cbn [obj_get].
    + destruct (str_eqb_spec k k') as [->|Ne']; [rewrite str_eqb_refl; reflexivity|]. destruct (str_eqb_spec k' k) as [->|]; [congruence | reflexivity].
    + destruct (str_eqb_spec k k') as [->|Ne']; [destruct (str_eqb_spec n k') as [->|]; [congruence | reflexivity] | exact IH].
Qed.
Lemma push_param_keys : forall n v m, keys (push_param n v m) = if existsb (str_eqb n) (keys m) then keys m else keys m ++ [n].
Proof.
  intros n v m. induction m as [|[k' vs] m IH]; [reflexivity|]. cbn [push_param keys map fst existsb]. destruct (str_eqb n k') eqn:E; [reflexivity|].
  cbn [keys map fst orb]. change (map fst (push_param n v m)) with (keys (push_param n v m)). rewrite IH. unfold keys. destruct (existsb _ _); reflexivity.
Qed.
Definition query_list (q : option query_map) : query_map := match q with Some m => m | None => [] end.
Section Calls.
Variable w : world.
Variable x : externals.
Lemma query_after : forall h b, let b' := fold_left (request_step w x) h b in
  (NoDup (keys (query_list (rb_query b))) -> NoDup (keys (query_list (rb_query b')))) /\
  forall k, obj_get k (query_list (rb_query b')) =
    match obj_get k (query_list (rb_query b)), map (fun p => Some (s_example p)) (params h k) with
    | Some vs, new => Some (vs ++ new)
    | None, [] => None
    | None, new => Some new
    end.
Proof.
  induction h as [|c h IH]; intros b b'.
  - subst b'. cbn. split; [auto|]. intro k. destruct (obj_get k _); [rewrite app_nil_r|]; reflexivity.
  - subst b'. cbn [fold_left]. destruct (IH (request_step w x b c)) as [N G]. clear IH.
    assert (query_list (rb_query (request_step w x b c)) = query_list (rb_query b) \/
      exists n v, c = RQuery n v /\ query_list (rb_query (request_step w x b c)) = push_param n (Some (s_example v)) (query_list (rb_query b))) as [E|(n & v & -> & E)].
    { destruct c as [| | |n v|]; try (left; reflexivity). right. exists n, v. split; reflexivity. }
    + rewrite E in N, G. split; [exact N|]. intro k. rewrite G. destruct c as [| | |n v|]; try reflexivity.
      exfalso. cbn in E. clear -E. change (match rb_query b with Some m => m | None => [] end) with (query_list (rb_query b)) in E.
      assert (L : length (concat (map snd (push_param n (Some (s_example v)) (query_list (rb_query b))))) = S (length (concat (map snd (query_list (rb_query b)))))).
      { generalize (query_list (rb_query b)) as m. induction m as [|[k vs] m IH]; [reflexivity|]. cbn [push_param]. destruct (str_eqb n k); cbn [map snd concat];
          rewrite !app_length; [cbn [length]; lia | rewrite IH; lia]. }
      rewrite E in L. lia.
    + rewrite E in N, G. split.
      * intro ND. apply N. rewrite push_param_keys. destruct (existsb _ _) eqn:X; [exact ND|].
        apply (Permutation_NoDup (Permutation_cons_append _ _)). constructor; [|exact ND]. intro J.
        assert (existsb (str_eqb n) (keys (query_list (rb_query b))) = true); [|congruence]. apply existsb_exists. exists n. split; [exact J | apply str_eqb_refl].
      * intro k. rewrite G, push_param_get. unfold params. cbn [flat_map]. destruct (str_eqb n k); [|reflexivity]. cbn [app map].
        destruct (obj_get k (query_list (rb_query b))) as [vs|]; [rewrite <- app_assoc; reflexivity|]. cbn [app]. reflexivity.
Qed.
Lemma query_none : forall h b, rb_query b <> None -> rb_query (fold_left (request_step w x) h b) <> None.
Proof.
  induction h as [|c h IH]; intros b H; [exact H|]. cbn [fold_left]. apply IH. destruct c; cbn; try exact H. discriminate.
Qed.
(** The query parameters of the request. *)
Lemma built_query : forall h k, params_of (req_query (build_request w x h)) k =
  match params h k with [] => None | ps => Some (map s_example ps) end.
Proof.
  intros h k. unfold build_request, request_calls. cbn [req_query]. destruct (query_after h request_start) as [_ G]. specialize (G k). cbn [request_start rb_query query_list obj_get] in G.
  unfold params_of. destruct (rb_query (fold_left (request_step w x) h request_start)) as [m|]; cbn [query_list] in G.
  - rewrite (entry_get _ k m), G. destruct (params h k) as [|p ps]; [reflexivity|]. cbn [map]. rewrite map_map. reflexivity.
  - cbn [obj_get] in G. destruct (params h k); [reflexivity | discriminate].
Qed.
Lemma built_query_once : forall h, one_entry_each (req_query (build_request w x h)).
Proof.
  intros h. unfold build_request, request_calls, one_entry_each. cbn [req_query]. destruct (query_after h request_start) as [N _].
  specialize (N (NoDup_nil _)). destruct (rb_query _); [exact N | exact I].
Qed.

(** ** Headers *)
Notation lower := (to_lower w).
Definition header_list (q : option hmap) : hmap := match q with Some m => m | None => [] end.
Definition texts_of (k : str) (ps : list string_pattern) : list str := flat_map (fun p => parse_header w k (s_example p)) ps.
Lemma texts_lower : forall k k' ps, lower k = lower k' -> texts_of k ps = texts_of k' ps.
Proof. intros k k' ps E. unfold texts_of. apply flat_map_ext. intro p. unfold parse_header. rewrite E. reflexivity. Qed.
Lemma extend_in : forall n vs m k a, unique_names lower m -> In (k, a) (extend_header w n vs m) ->
  (In (k, a) m /\ lower k <> lower n) \/
  (exists a0, In (k, a0) m /\ lower k = lower n /\ a = a0 ++ vs) \/
  (k = n /\ a = vs /\ forall k0 a0, In (k0, a0) m -> lower k0 <> lower n).
Proof.
  intros n vs m k a. induction m as [|[k1 a1] m IH]; intros U J; cbn [extend_header] in J.
  - destruct J as [J|[]]. injection J as <- <-. right. right. split; [reflexivity|]. split; [reflexivity | intros ? ? []].
  - unfold unique_names in U. cbn [map fst] in U. inversion U as [|? ? N1 N2]; subst. destruct (str_eqb_spec (lower k1) (lower n)) as [E|Ne].
    + destruct J as [J|J].
      * injection J as <- <-. right. left. exists a1. split; [left; reflexivity|]. split; [exact E | reflexivity].
      * left. split; [right; exact J|]. intro X. apply N1. rewrite E, <- X. apply in_map_iff. exists (k, a). split; [reflexivity | exact J].
    + destruct J as [J|J].
      * injection J as <- <-. left. split; [left; reflexivity | exact Ne].
      * destruct (IH N2 J) as [[J1 J2]|[(a0 & J1 & J2 & J3)|(J1 & J2 & J3)]].
        -- left. split; [right; exact J1 | exact J2].
        -- right. left. exists a0. split; [right; exact J1|]. split; assumption.
        -- right. right. split; [exact J1|]. split; [exact J2|]. intros k0 a0 [J0|J0]; [injection J0 as <- <-; exact Ne | eapply J3, J0].
Qed.
Lemma extend_has : forall n vs m k, (exists a, In (k, a) m) -> exists a, In (k, a) (extend_header w n vs m).
Proof.
  intros n vs m k [a J]. induction m as [|[k1 a1] m IH]; [destruct J|]. cbn [extend_header]. destruct (str_eqb _ _).
  - destruct J as [J|J]; [injection J as <- <-; eexists; left; reflexivity | exists a; right; exact J].
  - destruct J as [J|J]; [exists a; left; exact J | destruct (IH J) as [a' J']; exists a'; right; exact J'].
Qed.
Lemma extend_new : forall n vs m, exists k a, In (k, a) (extend_header w n vs m) /\ lower k = lower n.
Proof.
  intros n vs m. induction m as [|[k1 a1] m IH]; cbn [extend_header]; [exists n, vs; split; [left; reflexivity | reflexivity]|].
  destruct (str_eqb_spec (lower k1) (lower n)) as [E|Ne]; [exists k1, (a1 ++ vs); split; [left; reflexivity | exact E]|].
  destruct IH as (k & a & J & E). exists k, a. split; [right; exact J | exact E].
Qed.
Lemma extend_unique : forall n vs m, unique_names lower m -> unique_names lower (extend_header w n vs m).
Proof.
  intros n vs m. unfold unique_names. induction m as [|[k1 a1] m IH]; intro U; cbn [extend_header map fst]; [constructor; [intros []|constructor]|].
  cbn [map fst] in U. inversion U as [|? ? N1 N2]; subst. destruct (str_eqb_spec (lower k1) (lower n)) as [E|Ne]; cbn [map fst]; [exact U|].
  constructor; [|exact (IH N2)]. intro J. apply in_map_iff in J as ([k a] & E & J). cbn [fst] in E.
  destruct (extend_in _ _ _ _ _ N2 J) as [[J1 _]|[(a0 & J1 & _)|(-> & _)]]; [| |congruence]; apply N1; rewrite <- E; apply in_map_iff; eexists; split; [|exact J1 | |exact J1]; reflexivity.
Qed.
(** The header map holds, for every name given, all the values given for it, under one spelling. *)
Definition holds_headers (l : list (str * string_pattern)) (m : hmap) : Prop :=
  unique_names lower m /\
  (forall k a, In (k, a) m -> values_of lower l k <> [] /\ a = texts_of k (values_of lower l k)) /\
  (forall n p, In (n, p) l -> exists k a, In (k, a) m /\ lower k = lower n).
Lemma values_of_app : forall l l' k, values_of lower (l ++ l') k = values_of lower l k ++ values_of lower l' k.
Proof. intros. unfold values_of. rewrite filter_app, map_app. reflexivity. Qed.
Lemma values_of_lower : forall l k k', lower k = lower k' -> values_of lower l k = values_of lower l k'.
Proof. intros l k k' E. unfold values_of. rewrite E. reflexivity. Qed.
Lemma values_of_nil : forall l k, values_of lower l k = [] <-> forall n p, In (n, p) l -> lower n <> lower k.
Proof.
  intros l k. unfold values_of. induction l as [|[n p] l IH]; cbn [filter map fst]; [split; [intros _ ? ? [] | reflexivity]|].
  destruct (str_eqb_spec (lower n) (lower k)) as [E|Ne].
  - split; [discriminate | intro H; exfalso; exact (H n p (or_introl eq_refl) E)].
  - rewrite IH. split; [intros H n0 p0 [J|J]; [injection J as <- <-; exact Ne | exact (H n0 p0 J)] | intros H n0 p0 J; apply (H n0 p0); right; exact J].
Qed.
Lemma extend_holds : forall l m n p, holds_headers l m ->
  holds_headers (l ++ [(n, p)]) (extend_header w n (parse_header w n (s_example p)) m).
Proof.
  intros l m n p (U & A & B). split; [apply extend_unique, U|]. split.
  - intros k a J. rewrite values_of_app. unfold values_of at 2 4. cbn [filter fst]. destruct (extend_in _ _ _ _ _ U J) as [[J1 Ne]|[(a0 & J1 & E & ->)|(-> & -> & No)]].
    + destruct (str_eqb_spec (lower n) (lower k)) as [X|_]; [congruence|]. cbn [map]. rewrite app_nil_r. apply A, J1.
    + rewrite E, str_eqb_refl. cbn [map snd]. destruct (A k a0 J1) as [NE ->]. split; [destruct (values_of lower l k); discriminate|].
      unfold texts_of. rewrite flat_map_app. cbn [flat_map]. rewrite app_nil_r. f_equal. unfold parse_header. rewrite E. reflexivity.
    + rewrite str_eqb_refl. cbn [map snd]. assert (values_of lower l n = []) as ->.
      { apply values_of_nil. intros n0 p0 J0 E0. destruct (B n0 p0 J0) as (k0 & a0 & J1 & E1). apply (No k0 a0 J1). congruence. }
      cbn [app]. split; [discriminate|]. unfold texts_of. cbn [flat_map]. rewrite app_nil_r. reflexivity.
  - intros n0 p0 J. apply in_app_or in J as [J|[J|[]]].
    + destruct (B n0 p0 J) as (k & a & J1 & E). destruct (extend_has n (parse_header w n (s_example p)) m k) as [a' J2]; [exists a; exact J1|].
      exists k, a'. split; [exact J2 | exact E].
    + injection J as <- <-. apply extend_new.
Qed.
Lemma part_headers_after : forall l done b, holds_headers done (header_list (pb_headers b)) -> (pb_headers b = None <-> done = []) ->
  let b' := fold_left (part_step w x) l b in
  holds_headers (done ++ header_calls l) (header_list (pb_headers b')) /\ (pb_headers b' = None <-> done ++ header_calls l = []).
Proof.
  induction l as [|c l IH]; intros done b H Z b'; [subst b'; cbn; rewrite app_nil_r; split; assumption|].
  subst b'. cbn [fold_left].
  assert (forall n v, part_step w x b c = part_step w x b c -> holds_headers (done ++ [(n, v)]) (extend_header w n (parse_header w n (s_example v)) (header_list (pb_headers b)))) as X.
  { intros n v _. apply extend_holds, H. }
  assert (forall n v, Some (extend_header w n (parse_header w n (s_example v)) (header_list (pb_headers b))) = None <-> done ++ [(n, v)] = []) as Y.
  { intros n v. split; [discriminate | intro E; destruct done; discriminate]. }
  destruct c as [n v|n ex v|t|t ct|p|p|p ct]; cbn [header_calls flat_map];
    try (apply (IH done); assumption).
  - change ([(n, v)] ++ flat_map _ l) with ([(n, v)] ++ header_calls l). rewrite app_assoc. apply IH; [exact (X n v eq_refl) | exact (Y n v)].
  - change ([(n, v)] ++ flat_map _ l) with ([(n, v)] ++ header_calls l). rewrite app_assoc. apply IH; [exact (X n v eq_refl) | exact (Y n v)].
Qed.
End Calls.
