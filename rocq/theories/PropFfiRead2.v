(** Iterators of the C interface (C119). *)
From Coq Require Import Ascii String List Arith NArith ZArith Lia Bool Sorted Permutation.
From Verif Require QueryString.
From Verif Require Import Base PathExp Json Text TextProofs MatchingRules Matchers Headers ContentType SpecQuery Http Expr Generators RuleExpr Merge Handles
  QueryProofs FfiRead SpecFfiRead PropFfiRead.
Import ListNotations.
Open Scope N_scope.

(** * Cursors *)
Lemma calls_from : forall A B (f : A -> answer B) n items k,
  length (calls f n (mkCursor _ k items)) = n /\
  forall j, (j < n)%nat -> nth_error (calls f n (mkCursor _ k items)) j = Some (match nth_error items (k + j) with Some a => f a | None => Null end).
Proof.
  induction n as [|n IH]; intros items k; [split; [reflexivity | intros; lia]|].
  cbn [calls next_with c_next c_at c_items]. destruct (IH items (S k)) as [H1 H2]. split; [cbn; f_equal; exact H1|].
  intros [|j] L; cbn [nth_error]; [rewrite Nat.add_0_r; reflexivity|].
  rewrite H2 by lia. replace (S k + j)%nat with (k + S j)%nat by lia. reflexivity.
Qed.
Lemma all_calls : forall A B (f : A -> answer B) n items, one_by_one f items n (calls f n (mkCursor _ 0%nat items)).
Proof. intros A B f n items. exact (calls_from A B f n items 0%nat). Qed.

(** * Sorting *)
Lemma insert_perm : forall A (e : docpath * A) l, Permutation (e :: l) (insert_by_path e l).
Proof.
  intros A e l. induction l as [|e' l IH]; cbn; [reflexivity|].
  destruct (str_compare (path_expr (fst e)) (path_expr (fst e'))); try reflexivity.
  rewrite perm_swap. apply perm_skip. exact IH.
Qed.
Lemma sort_perm : forall A (l : list (docpath * A)), Permutation l (sort_by_path l).
Proof.
  intros A l. induction l as [|e l IH]; cbn; [reflexivity|]. rewrite <- insert_perm. apply perm_skip. exact IH.
Qed.
Lemma order_trans : forall A (a b c : docpath * A), path_order a b -> path_order b c -> path_order a c.
Proof.
  unfold path_order. intros A a b c [H|H] [K|K].
  - left. congruence.
  - right. rewrite H. exact K.
  - right. rewrite <- K. exact H.
  - right. exact (str_lt_trans _ _ _ H K).
Qed.
Lemma insert_sorted' : forall A (e : docpath * A) l, StronglySorted path_order l -> StronglySorted path_order (insert_by_path e l).
Proof.
  intros A e l H. induction H as [|e' l SS IH F]; cbn; [repeat constructor|].
  assert (Ins : path_order e e' -> StronglySorted path_order (e :: e' :: l)).
  { intro P. constructor; [constructor; assumption|]. constructor; [exact P|]. rewrite Forall_forall in F |- *.
    intros z I. exact (order_trans _ _ _ _ P (F z I)). }
  destruct (str_compare (path_expr (fst e)) (path_expr (fst e'))) eqn:C.
  - apply Ins. left. apply str_compare_eq. exact C.
  - apply Ins. right. exact C.
  - constructor; [exact IH|]. rewrite Forall_forall in F |- *. intros z I.
    apply (Permutation_in _ (Permutation_sym (insert_perm _ e l))) in I as [<-|I]; [|exact (F z I)].
    right. unfold str_lt. rewrite str_compare_antisym, C. reflexivity.
Qed.
Lemma sort_sorted : forall A (l : list (docpath * A)), StronglySorted path_order (sort_by_path l).
Proof. intros A l. induction l as [|e l IH]; cbn; [constructor | apply insert_sorted'; exact IH]. Qed.

(** With different texts the order is that of the texts, so that it does not matter how the map was iterated. *)
Definition texts_differ {A} (l : list (docpath * A)) : Prop := NoDup (map (fun e => path_expr (fst e)) l).
Lemma same_sorted : forall A (a b : list (docpath * A)), texts_differ a -> Permutation a b ->
  StronglySorted path_order a -> StronglySorted path_order b -> a = b.
Proof.
  intros A a. induction a as [|x a IH]; intros b ND P SA SB.
  - apply Permutation_nil in P. congruence.
  - destruct b as [|y b]; [apply Permutation_sym, Permutation_nil in P; discriminate|].
    inversion SA as [|? ? SA' FA]; subst. inversion SB as [|? ? SB' FB]; subst.
    assert (E : x = y).
    { assert (Iy : In y (x :: a)) by (apply (Permutation_in _ (Permutation_sym P)); left; reflexivity).
      assert (Ix : In x (y :: b)) by (apply (Permutation_in _ P); left; reflexivity).
      destruct Iy as [<-|Iy]; [reflexivity|]. destruct Ix as [->|Ix]; [reflexivity|]. exfalso.
      rewrite Forall_forall in FA, FB. specialize (FA y Iy). specialize (FB x Ix).
      inversion ND as [|? ? NI ND']; subst.
      assert (NE : path_expr (fst x) <> path_expr (fst y)) by (intro E; apply NI; rewrite E; exact (in_map (fun e => path_expr (fst e)) a y Iy)).
      destruct FA as [FA|FA]; [congruence|]. destruct FB as [FB|FB]; [congruence|].
      exact (str_lt_irrefl _ (str_lt_trans _ _ _ FA FB)). }
    subst y. f_equal. apply IH; try assumption.
    + inversion ND; assumption.
    + exact (Permutation_cons_inv P).
Qed.
Lemma differ_perm : forall A (a b : list (docpath * A)), Permutation a b -> texts_differ a -> texts_differ b.
Proof. intros A a b P H. unfold texts_differ. exact (Permutation_NoDup (Permutation_map _ P) H). Qed.
Lemma sort_canonical : forall A (a b : list (docpath * A)), texts_differ a -> Permutation a b -> sort_by_path a = sort_by_path b.
Proof.
  intros A a b ND P. apply same_sorted; try apply sort_sorted.
  - exact (differ_perm _ _ _ (sort_perm A a) ND).
  - rewrite <- (sort_perm A a), <- (sort_perm A b). exact P.
Qed.

(** * Rules *)
Lemma order_key : forall A B (a : docpath * A) (b : docpath * A) (a' b' : docpath * B),
  fst a' = fst a -> fst b' = fst b -> path_order a b -> path_order a' b'.
Proof. unfold path_order. intros A B a b a' b' -> -> H. exact H. Qed.
Lemma flat_sorted : forall R (l : list (docpath * rulelist_ R)), StronglySorted path_order l ->
  StronglySorted path_order (flat_map (fun kr => map (pair (fst kr)) (rl_rules (snd kr))) l).
Proof.
  intros R l H. induction H as [|[p rl] l SS IH F]; cbn; [constructor|].
  induction (rl_rules rl) as [|r rs IHr]; cbn; [exact IH|].
  constructor; [exact IHr|]. rewrite Forall_forall. intros z I. apply in_app_or in I as [I|I].
  - apply in_map_iff in I as [r' [<- _]]. left. reflexivity.
  - apply in_flat_map in I as [[q rl'] [I J]]. apply in_map_iff in J as [r' [<- _]].
    rewrite Forall_forall in F. exact (order_key _ _ _ _ (p, r) (q, r') eq_refl eq_refl (F (q, rl') I)).
Qed.
Lemma filter_none : forall A (f : A -> bool) l, (forall z, In z l -> f z = false) -> filter f l = [].
Proof. intros A f l. induction l as [|a l IH]; cbn; intro H; [reflexivity|]. rewrite (H a) by (left; reflexivity). apply IH. intros z I. apply H. right. exact I. Qed.
Lemma filter_all : forall A (f : A -> bool) l, (forall z, In z l -> f z = true) -> filter f l = l.
Proof. intros A f l. induction l as [|a l IH]; cbn; intro H; [reflexivity|]. rewrite (H a) by (left; reflexivity). f_equal. apply IH. intros z I. apply H. right. exact I. Qed.
Lemma flat_filter : forall R (l : list (docpath * rulelist_ R)) p rl, texts_differ l -> In (p, rl) l ->
  filter (fun i => path_eqb (fst i) p) (flat_map (fun kr => map (pair (fst kr)) (rl_rules (snd kr))) l) = map (pair p) (rl_rules rl).
Proof.
  intros R l p rl. induction l as [|[q ql] l IH]; intros ND I; [destruct I|]. inversion ND as [|? ? NI ND']; subst.
  cbn [flat_map fst snd]. rewrite filter_app. destruct I as [I|I].
  - injection I as -> ->. rewrite filter_all, filter_none; [apply app_nil_r| |].
    + intros [q r] J. apply in_flat_map in J as [[q' l'] [J K]]. apply in_map_iff in K as [r' [K _]]. injection K as -> ->. cbn [fst].
      unfold path_eqb. destruct (str_eqb_spec (path_expr q) (path_expr p)) as [E|E]; [|reflexivity].
      contradiction NI. cbn [fst]. rewrite <- E. exact (in_map (fun e => path_expr (fst e)) l (q, l') J).
    + intros [q r] J. apply in_map_iff in J as [r' [J _]]. injection J as <- <-. apply str_eqb_refl.
  - rewrite filter_none; [apply IH; assumption|]. intros [q' r] J. apply in_map_iff in J as [r' [J _]]. injection J as <- <-. cbn [fst].
    unfold path_eqb. destruct (str_eqb_spec (path_expr q) (path_expr p)) as [E|E]; [|reflexivity].
    contradiction NI. cbn [fst]. rewrite E. exact (in_map (fun e => path_expr (fst e)) l (p, rl) I).
Qed.
Lemma pair_answer : forall R (e : docpath * R), answer_ok (path_expr (fst e)) (snd e) (path_pair e).
Proof.
  intros R e. unfold path_pair. split; intro H; [rewrite to_c_ok by exact H | rewrite to_c_nul by exact H]; reflexivity.
Qed.

(** The iterator over the rules of a category gives every rule once: the paths in the order of their texts, the rules of a path in
    their own order; after the last it gives NULL. *)
Theorem C119_rules : forall R (c : category_ R), texts_differ (cat_rules c) ->
  exists items, lists_rules (cat_rules c) items /\
    forall n, one_by_one path_pair items n (calls path_pair n (rule_iterator (Some c))).
Proof.
  intros R c ND. eexists. split; [|intro n; apply all_calls].
  pose proof (sort_perm _ (cat_rules c)) as P. split; [|split].
  - apply flat_sorted. apply sort_sorted.
  - intros p r I. apply in_flat_map in I as [[q l] [I J]]. apply in_map_iff in J as [r' [J K]]. injection J as <- <-.
    exists l. split; [exact (Permutation_in _ (Permutation_sym P) I) | exact K].
  - intros p l I. apply flat_filter; [exact (differ_perm _ _ _ P ND) | exact (Permutation_in _ P I)].
Qed.
(** An answer is the text of the path with the rule, or NULL with an error if the text has a NUL character. *)
Theorem C119_answers : forall R (e : docpath * R), answer_ok (path_expr (fst e)) (snd e) (path_pair e).
Proof. exact pair_answer. Qed.
(** The order of the map does not matter. *)
Theorem C119_map_order_does_not_matter : forall R n m (a b : list (docpath * rulelist_ R)) k, texts_differ a -> Permutation a b ->
  calls path_pair k (rule_iterator (Some (mkCat n a))) = calls path_pair k (rule_iterator (Some (mkCat m b))).
Proof. intros R n m a b k ND P. unfold rule_iterator. cbn [cat_rules]. rewrite (sort_canonical _ _ _ ND P). reflexivity. Qed.
Theorem C119_no_rules : forall R n, one_by_one (@path_pair R) [] n (calls path_pair n (rule_iterator None)).
Proof. intros R n. apply all_calls. Qed.
(** The iterator over the generators of a category gives every generator once, in the order of the texts of the paths. *)
Theorem C119_generators : forall c g,
  exists items, lists_generators (match cats_get c g with Some m => m | None => [] end) items /\
    forall n, one_by_one path_pair items n (calls path_pair n (generator_iterator c g)).
Proof.
  intros c g. eexists. split; [|intro n; apply all_calls]. split; [apply sort_sorted | apply sort_perm].
Qed.
Theorem C119_generators_map_order : forall c g g' m m' k, cats_get c g = Some m -> cats_get c g' = Some m' -> texts_differ m -> Permutation m m' ->
  calls path_pair k (generator_iterator c g) = calls path_pair k (generator_iterator c g').
Proof. intros c g g' m m' k E E' ND P. unfold generator_iterator. rewrite E, E', (sort_canonical _ _ _ ND P). reflexivity. Qed.

(** * Metadata and parameters *)
Section Texts.
Variable w : world.
Lemma names_in : forall (m : list (str * json)) k, In k (names_sorted m) <-> exists v, obj_get k m = Some v.
Proof.
  intros m k. change (names_sorted m) with (keys (QueryString.sort_entries m)). pose proof (sort_entries_get _ m k) as E. split.
  - intro I. destruct (obj_get k m) as [v|] eqn:F; [exists v; reflexivity|]. apply obj_get_none in E. contradiction.
  - intros [v F]. rewrite F in E. destruct (in_dec (list_eq_dec N.eq_dec) k (keys (QueryString.sort_entries m))) as [I|I]; [exact I|].
    apply obj_get_none in I. congruence.
Qed.
(** The iterator over the metadata gives every entry once, the names in order; a text as it is, every other value as JSON. *)
Theorem C119_metadata : forall m,
  exists names, StronglySorted str_lt names /\ (forall k, In k names <-> exists v, obj_get k m = Some v) /\
    (forall n, one_by_one (metadata_entry w m) names n (calls (metadata_entry w m) n (metadata_iterator m))) /\
    forall k v, obj_get k m = Some v ->
      let t := match v with JStr s => s | JNull => [] | _ => json_show w v end in
      (~ In 0 k -> ~ In 0 t -> metadata_entry w m k = Gave (utf8 k, utf8 t)) /\ (In 0 k \/ In 0 t -> metadata_entry w m k = Failed).
Proof.
  intro m. exists (names_sorted m). split; [apply (sort_entries_sorted json m)|]. split; [apply names_in|]. split; [intro n; apply all_calls|].
  intros k v E t. unfold metadata_entry. rewrite E.
  assert (T : json_to_string w v = t) by (destruct v; reflexivity). rewrite T. unfold text_pair. split.
  - intros H1 H2. rewrite (to_c_ok k H1), (to_c_ok t H2). reflexivity.
  - intro H. destruct (in_dec0 k) as [I|I]; [rewrite (to_c_nul k I); reflexivity|]. destruct H as [H|H]; [contradiction|].
    rewrite (to_c_ok k I). cbn [a_bind]. rewrite (to_c_nul t H). reflexivity.
Qed.
(** The iterator over the parameters of a provider state gives every parameter once, each value as JSON (a text in quotes). *)
Theorem C119_parameters : forall s, NoDup (map fst (st_params s)) ->
  exists names, NoDup names /\ (forall k, In k names <-> exists v, obj_get k (st_params s) = Some v) /\
    (forall n, one_by_one (param_entry w s) names n (calls (param_entry w s) n (param_iterator s))) /\
    forall k v, obj_get k (st_params s) = Some v -> ~ In 0 k -> ~ In 0 (json_show w v) ->
      param_entry w s k = Gave (utf8 k, utf8 (json_show w v)).
Proof.
  intros s ND. exists (map fst (st_params s)). split; [exact ND|]. split; [|split; [intro n; apply all_calls|]].
  - intro k. change (map fst (st_params s)) with (keys (st_params s)). destruct (obj_get k (st_params s)) as [v|] eqn:E.
    + split; [intros _; exists v; reflexivity|]. intros _.
      destruct (in_dec (list_eq_dec N.eq_dec) k (keys (st_params s))) as [I|I]; [exact I|]. apply obj_get_none in I. congruence.
    + apply obj_get_none in E. split; [contradiction|]. intros [v F]. discriminate.
  - intros k v E H1 H2. unfold param_entry, text_pair. rewrite E, (to_c_ok k H1). cbn [a_bind]. rewrite (to_c_ok _ H2). reflexivity.
Qed.
End Texts.

(** * Provider states and interactions *)
Lemma states_from : forall l n k states, nth_error l k = Some states -> nth_error (state_calls n l) k = Some (nth_error states (n + k)).
Proof.
  induction l as [|s l IH]; intros n k states H; [destruct k; discriminate|]. destruct k as [|k]; cbn in H |- *.
  - injection H as ->. rewrite Nat.add_0_r. reflexivity.
  - rewrite (IH (S n) k states H). do 2 f_equal. lia.
Qed.
(** The iterator over provider states looks at the states as they are when it is called: the k-th call gives the k-th of them then. If
    states are only added while it is used, it gives the first states once each, in order, and NULL only at a time when it has given all. *)
Theorem C119_states : forall (history : list (list pstate)) k now, nth_error history k = Some now ->
  nth_error (state_calls 0 history) k = Some (nth_error now k) /\
  forall later, (exists more, later = now ++ more) ->
    match nth_error now k with Some s => nth_error later k = Some s | None => (length now <= k)%nat end.
Proof.
  intros history k now H. split; [exact (states_from history 0%nat k now H)|].
  intros later [more ->]. destruct (nth_error now k) as [s|] eqn:E.
  - rewrite nth_error_app1; [exact E|]. apply nth_error_Some. congruence.
  - apply nth_error_None. exact E.
Qed.
Definition has_kind (k : kind) (i : v4i) : Prop :=
  match k, v_payload i with KHttp, SyncHttp _ _ | KAsync, AsyncMessage _ | KSync, SyncMessage _ _ => True | _, _ => False end.
Lemma kind_iff : forall k i, kind_eqb (kind_of i) k = true <-> has_kind k i.
Proof. intros k i. unfold kind_of, has_kind. destruct (v_payload i), k; cbn; split; intro H; try reflexivity; try discriminate; auto; contradiction. Qed.
(** [sub] is what [l] has of a kind: the others left out. *)
Inductive only_those {A} (P : A -> Prop) : list A -> list A -> Prop :=
| ot_nil : only_those P [] []
| ot_keep : forall a l sub, P a -> only_those P l sub -> only_those P (a :: l) (a :: sub)
| ot_skip : forall a l sub, ~ P a -> only_those P l sub -> only_those P (a :: l) sub.
Theorem C119_interactions : forall p,
  (forall n, one_by_one (fun i => Gave i) (vp_ints p) n (calls (fun i => Gave i) n (interaction_iterator None p))) /\
  forall k, exists sub, only_those (has_kind k) (vp_ints p) sub /\
    forall n, one_by_one (fun i => Gave i) sub n (calls (fun i => Gave i) n (interaction_iterator (Some k) p)).
Proof.
  intro p. split; [intro n; apply all_calls|]. intro k. eexists. split; [|intro n; apply all_calls].
  induction (vp_ints p) as [|i l IH]; cbn [filter]; [constructor|].
  destruct (kind_eqb (kind_of i) k) eqn:E; [apply ot_keep | apply ot_skip]; try exact IH.
  - apply kind_iff. exact E.
  - intro H. apply kind_iff in H. congruence.
Qed.

(** * Examples *)
Definition px (s : string) : docpath := mkPath [TRoot; TField (S_ s)] (S_ s).
Example C119_example :
  let c := mkCat CBody [(px "$.b", mkRules [S_ "1"; S_ "2"] And false); (px "$.a", mkRules [S_ "3"] And false); (px "$.c", mkRules [] And false)] in
  texts_differ (cat_rules c) /\
  calls path_pair 5 (rule_iterator (Some c)) = [Gave (S_ "$.a", S_ "3"); Gave (S_ "$.b", S_ "1"); Gave (S_ "$.b", S_ "2"); Null; Null].
Proof. split; [repeat constructor; cbn; intuition discriminate | vm_compute; reflexivity]. Qed.
(** NULL is not always the end: a path with a NUL character is answered with NULL (and an error), and there are more rules behind it. *)
Example C119_null_is_not_always_the_end :
  let c := mkCat CBody [(px "$.b", mkRules [S_ "1"] And false); (mkPath [TRoot; TField [0]] [36; 91; 39; 0; 39; 93], mkRules [S_ "2"] And false)] in
  calls path_pair 3 (rule_iterator (Some c)) = [Gave (S_ "$.b", S_ "1"); Failed; Null] \/
  calls path_pair 3 (rule_iterator (Some c)) = [Failed; Gave (S_ "$.b", S_ "1"); Null].
Proof. vm_compute. auto. Qed.
Example C119_metadata_example : forall w,
  calls (metadata_entry w [(S_ "b", JNum (PosInt 100)); (S_ "a", JStr (S_ "A"))]) 3 (metadata_iterator [(S_ "b", JNum (PosInt 100)); (S_ "a", JStr (S_ "A"))])
  = [Gave (S_ "a", S_ "A"); Gave (S_ "b", S_ "100"); Null].
Proof. intro w. vm_compute. reflexivity. Qed.
(** The same text is given without quotes by the metadata and in quotes by the parameters of a provider state. *)
Example C119_parameter_example : forall w, calls (param_entry w (mkState (S_ "s") [(S_ "k", JStr (S_ "v"))])) 2 (param_iterator (mkState (S_ "s") [(S_ "k", JStr (S_ "v"))]))
  = [Gave (S_ "k", [34; 118; 34]); Null].
Proof. intro w. vm_compute. reflexivity. Qed.
Example C119_interaction_example :
  let h := new_int KHttp (S_ "h") in let a := new_int KAsync (S_ "a") in let s := new_int KSync (S_ "s") in
  let p := mkV4P (mkWho [] []) [h; a; s; a] [] [] in
  calls (fun i => Gave i) 3 (interaction_iterator (Some KAsync) p) = [Gave a; Gave a; Null] /\
  calls (fun i => Gave i) 2 (interaction_iterator (Some KSync) p) = [Gave s; Null].
Proof. vm_compute. auto. Qed.

(** Examples of C118. *)
Section Examples.
Variable x : externals.
Variable lossy : list N -> str.
Example C118_example :
  let i := SyncMessage default_message [] in
  let cs := [SetText (PReply 2) (Some (S_ "hello")) None; SetText PMessageRequest (Some (S_ "one")) None; SetBytes PMessageRequest (Some (S_ "two")) None;
             SetText PMessageRequest (Some [255]) None] in
  let j := after x lossy [] i cs in
  responses j = 3%nat /\ get_text (PReply 2) j = Gave (S_ "hello") /\ get_text (PReply 0) j = Null /\ get_text (PReply 3) j = Null /\
  get_bytes PMessageRequest j = Some (S_ "two") /\ get_text PMessageRequest j = Gave [].
Proof. vm_compute. repeat split. Qed.
(** A call that fails still makes room for the response. *)
Example C118_failed_call_makes_room :
  responses (after x lossy [] (SyncMessage default_message []) [SetText (PReply 4) (Some [255]) None]) = 5%nat.
Proof. vm_compute. reflexivity. Qed.
(** Contents without a type and without a mark are shown as an empty text. *)
Example C118_unmarked_contents : contents_text (BPresent (S_ "hello") None None) = Gave [] /\ contents_length (BPresent (S_ "hello") None None) = 5%nat.
Proof. vm_compute. auto. Qed.
End Examples.
