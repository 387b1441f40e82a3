(** C70: generators survive the pact file. *)
From Coq Require Import String List Arith NArith ZArith Lia Bool Permutation Sorted.
From Coq Require Import ZifyBool ZifyN ZifyNat.
From Verif Require Import Base PathExp Json MatchingRules Expr Generators SpecGenerators RulesProofs RulesProofs3 PropBody PropPath.
Import ListNotations.
Ltac Zify.zify_post_hook ::= Z.div_mod_to_equations.
Open Scope N_scope.

Local Opaque show_N.

(** * One generator *)
Definition reads_back (w : world) (x : generator) (m : list (str * json)) : Prop :=
  exists ty, obj_get (S_ "type") m = Some (JStr ty) /\ gen_from_map w ty m = Some x.

Lemma i32_field : forall z m k d, i32_range z -> obj_get k m = Some (json_of_i64 z) -> json_to_i32 m k d = z.
Proof.
  intros z m k d R G. unfold json_to_i32. rewrite G. unfold json_of_i64, i32_range in *. destruct (Z.leb_spec 0 z).
  - assert (L : (Z.to_N z <? 9223372036854775808) = true) by (apply N.ltb_lt; lia).
    rewrite L. unfold wrap_i32. rewrite Z2N.id by lia. lia.
  - unfold wrap_i32. lia.
Qed.
Lemma u16_field : forall n, u16_range n -> wrap_u16 n = n.
Proof. intros n H. unfold wrap_u16, u16_range in *. lia. Qed.

Lemma generator_back : forall w x, in_range x -> not_array_contains x ->
  exists m, gen_to_json x = Some (JObj m) /\ reads_back w x m.
Proof.
  intros w x R NA. destruct x; cbn [gen_to_json]; try contradiction.
  - destruct R as [R1 R2]. eexists. split; [reflexivity|]. eexists. split; [reflexivity|].
    unfold gen_from_map. rewrite str_eqb_refl.
    rewrite (i32_field min _ (S_ "min") 0%Z R1) by reflexivity. rewrite (i32_field max _ (S_ "max") 10%Z R2) by reflexivity. reflexivity.
  - destruct format as [f|]; eexists; (split; [reflexivity|]); eexists; (split; [reflexivity|]); [destruct f|]; reflexivity.
  - eexists. split; [reflexivity|]. eexists. split; [reflexivity|].
    change (Some (GRandomDecimal (wrap_u16 digits)) = Some (GRandomDecimal digits)). rewrite u16_field by exact R. reflexivity.
  - eexists. split; [reflexivity|]. eexists. split; [reflexivity|].
    change (Some (GRandomHexadecimal (wrap_u16 digits)) = Some (GRandomHexadecimal digits)). rewrite u16_field by exact R. reflexivity.
  - eexists. split; [reflexivity|]. eexists. split; [reflexivity|].
    change (Some (GRandomString (wrap_u16 size)) = Some (GRandomString size)). rewrite u16_field by exact R. reflexivity.
  - eexists. split; [reflexivity|]. eexists. split; reflexivity.
  - destruct format, expression; eexists; (split; [reflexivity|]); eexists; split; reflexivity.
  - destruct format, expression; eexists; (split; [reflexivity|]); eexists; split; reflexivity.
  - destruct format, expression; eexists; (split; [reflexivity|]); eexists; split; reflexivity.
  - eexists. split; [reflexivity|]. eexists. split; reflexivity.
  - destruct type as [d|]; eexists; (split; [reflexivity|]); eexists; (split; [reflexivity|]); [destruct d|]; reflexivity.
  - eexists. split; [reflexivity|]. eexists. split; reflexivity.
Qed.

(** What is read is in range and not an array-contains generator. *)
Lemma json_i32_range : forall m k d, i32_range d -> i32_range (json_to_i32 m k d).
Proof.
  intros m k d H. unfold json_to_i32. destruct (obj_get k m) as [[]|]; try exact H.
  destruct n; try exact H; unfold i32_range, wrap_i32 in *; [|lia].
  destruct (n <? 9223372036854775808); lia.
Qed.
Lemma json_u16_range : forall m k d, u16_range d -> u16_range (json_to_u16 m k d).
Proof.
  intros m k d H. unfold json_to_u16. destruct (obj_get k m) as [[]|]; try exact H.
  destruct n; try exact H. unfold u16_range, wrap_u16 in *. lia.
Qed.
Lemma read_generator_ok : forall w ty m x, gen_from_map w ty m = Some x -> in_range x /\ not_array_contains x.
Proof.
  intros w ty m x H. unfold gen_from_map in H.
  destruct (str_eqb ty (S_ "RandomInt")).
  { injection H as <-. split; [|exact I]. split; apply json_i32_range; unfold i32_range; lia. }
  destruct (str_eqb ty (S_ "Uuid")).
  { destruct (obj_get (S_ "format") m); injection H as <-; split; exact I. }
  destruct (str_eqb ty (S_ "RandomDecimal")).
  { injection H as <-. split; [|exact I]. apply json_u16_range. unfold u16_range; lia. }
  destruct (str_eqb ty (S_ "RandomHexadecimal")).
  { injection H as <-. split; [|exact I]. apply json_u16_range. unfold u16_range; lia. }
  destruct (str_eqb ty (S_ "RandomString")).
  { injection H as <-. split; [|exact I]. apply json_u16_range. unfold u16_range; lia. }
  destruct (str_eqb ty (S_ "Regex")).
  { destruct (obj_get (S_ "regex") m); cbn in H; [|discriminate]. injection H as <-; split; exact I. }
  destruct (str_eqb ty (S_ "Date")). { injection H as <-; split; exact I. }
  destruct (str_eqb ty (S_ "Time")). { injection H as <-; split; exact I. }
  destruct (str_eqb ty (S_ "DateTime")). { injection H as <-; split; exact I. }
  destruct (str_eqb ty (S_ "RandomBoolean")). { injection H as <-; split; exact I. }
  destruct (str_eqb ty (S_ "ProviderState")).
  { destruct (obj_get (S_ "expression") m); cbn in H; [|discriminate]. injection H as <-; split; exact I. }
  destruct (str_eqb ty (S_ "MockServerURL")). { injection H as <-; split; exact I. }
  discriminate.
Qed.

(** * Adding to a collection *)
Lemma gcat_eqb_spec : forall a b, reflect (a = b) (gcat_eqb a b).
Proof. intros a b. destruct a, b; constructor; try reflexivity; discriminate. Qed.

Definition texts (m : gen_map) : list str := map (fun px => path_expr (fst px)) m.

Lemma hm_insert_fresh : forall (m : gen_map) p x, ~ In (path_expr p) (texts m) -> hm_insert p x m = m ++ [(p, x)].
Proof.
  induction m as [|[k v] m IH]; intros p x H; cbn [hm_insert]; [reflexivity|].
  unfold path_eqb. destruct (str_eqb_spec (path_expr p) (path_expr k)) as [E|N].
  - exfalso. apply H. left. symmetry. exact E.
  - cbn [app]. rewrite IH; [reflexivity|]. intro I. apply H. right. exact I.
Qed.
Lemma hm_insert_entries : forall (m : gen_map) p x q y, In (q, y) (hm_insert p x m) ->
  (q = p /\ y = x) \/ (y = x /\ exists z, In (q, z) m) \/ In (q, y) m.
Proof.
  induction m as [|[k v] m IH]; intros p x q y H; cbn [hm_insert] in H.
  - destruct H as [H|[]]. injection H as <- <-. left. split; reflexivity.
  - destruct (path_eqb p k).
    + destruct H as [H|H]; [injection H as <- <-; right; left; split; [reflexivity|exists v; left; reflexivity]|right; right; right; exact H].
    + destruct H as [H|H]; [right; right; left; exact H|].
      destruct (IH p x q y H) as [A|[[A (z & B)]|A]]; [left; exact A|right; left; split; [exact A|exists z; right; exact B]|right; right; right; exact A].
Qed.
Lemma hm_insert_texts : forall (m : gen_map) p x t, In t (texts (hm_insert p x m)) -> t = path_expr p \/ In t (texts m).
Proof.
  induction m as [|[k v] m IH]; intros p x t H; cbn [hm_insert] in H.
  - destruct H as [H|[]]. left. symmetry. exact H.
  - destruct (path_eqb p k); [right; exact H|].
    destruct H as [H|H]; [right; left; exact H|]. destruct (IH p x t H); [left; assumption|right; right; assumption].
Qed.
Lemma hm_insert_nodup : forall (m : gen_map) p x, NoDup (texts m) -> NoDup (texts (hm_insert p x m)).
Proof.
  induction m as [|[k v] m IH]; intros p x H; cbn [hm_insert].
  - constructor; [intros []|constructor].
  - unfold path_eqb. destruct (str_eqb_spec (path_expr p) (path_expr k)) as [E|N]; [exact H|].
    inversion H as [|t l H1 H2]; subst. constructor; [|apply IH; exact H2].
    intro I. apply hm_insert_texts in I. destruct I as [I|I]; [exact (N (eq_sym I))|contradiction].
Qed.

Definition keys_free (c : gcat) (g : generators) : Prop := forall m, ~ In (c, m) g.

Lemma cats_update_in : forall f g c c' m', NoDup (map fst g) ->
  (In (c', m') (cats_update c f g) <->
   (c' <> c /\ In (c', m') g) \/ (c' = c /\ exists m, m' = f m /\ (In (c, m) g \/ (m = [] /\ keys_free c g)))).
Proof.
  intros f. induction g as [|[k m] g IH]; intros c c' m' ND; cbn [cats_update].
  - split.
    + intros [H|[]]. injection H as <- <-. right. split; [reflexivity|]. exists []. split; [reflexivity|].
      right. split; [reflexivity|intros m []].
    + intros [[_ []]|(-> & m & -> & [[]|[-> _]])]. left. reflexivity.
  - inversion ND as [|? ? Hn ND']; subst.
    assert (Hk : forall m0, ~ In (k, m0) g) by (intros m0 I; apply Hn; apply (in_map fst) in I; exact I).
    destruct (gcat_eqb_spec c k) as [->|N].
    + split.
      * intros [H|H].
        -- injection H as <- <-. right. split; [reflexivity|]. exists m. split; [reflexivity|]. left. left. reflexivity.
        -- left. split; [intros ->; exact (Hk _ H)|right; exact H].
      * intros [[H1 [H|H]]|(-> & m0 & -> & [[H|H]|[_ H]])].
        -- injection H as <- <-. contradiction.
        -- right. exact H.
        -- injection H as <-. left. reflexivity.
        -- exfalso. exact (Hk _ H).
        -- exfalso. apply (H m). left. reflexivity.
    + cbn [In]. rewrite (IH c c' m' ND'). split.
      * intros [H|[[H1 H]|(-> & m0 & -> & [H|[H1 H]])]].
        -- injection H as <- <-. left. split; [congruence|left; reflexivity].
        -- left. split; [exact H1|right; exact H].
        -- right. split; [reflexivity|]. exists m0. split; [reflexivity|]. left. right. exact H.
        -- right. split; [reflexivity|]. exists m0. split; [reflexivity|]. right. split; [exact H1|].
           intros m1 [X|X]; [injection X as -> _; contradiction|exact (H _ X)].
      * intros [[H1 [H|H]]|(-> & m0 & -> & [[H|H]|[H1 H]])].
        -- left. exact H.
        -- right. left. split; assumption.
        -- injection H as -> _. contradiction.
        -- right. right. split; [reflexivity|]. exists m0. split; [reflexivity|left; exact H].
        -- right. right. split; [reflexivity|]. exists m0. split; [reflexivity|]. right. split; [exact H1|].
           intros m1 X. apply (H m1). right. exact X.
Qed.

Lemma cats_update_keys : forall f g c k, In k (map fst (cats_update c f g)) <-> k = c \/ In k (map fst g).
Proof.
  intros f. induction g as [|[k' m] g IH]; intros c k; cbn [cats_update map fst In].
  - split; intros [H|H]; auto; contradiction.
  - destruct (gcat_eqb_spec c k') as [->|N]; cbn [map fst In].
    + split; intros H; [right; exact H|destruct H as [->|H]; [left; reflexivity|exact H]].
    + rewrite IH. split; intros H; [destruct H as [->|[->|H]]|destruct H as [->|[->|H]]]; auto.
Qed.
Lemma cats_update_nodup : forall f g c, NoDup (map fst g) -> NoDup (map fst (cats_update c f g)).
Proof.
  intros f. induction g as [|[k' m] g IH]; intros c H; cbn [cats_update map fst].
  - constructor; [intros []|constructor].
  - inversion H as [|? ? H1 H2]; subst. destruct (gcat_eqb_spec c k') as [->|N]; [exact H|].
    cbn [map fst]. constructor; [|apply IH; exact H2].
    intro X. apply cats_update_keys in X. destruct X as [->|X]; [contradiction|contradiction].
Qed.

Lemma add_wf : forall g c p x, generators_wf g -> in_range x -> generators_wf (add_generator_at c p x g).
Proof.
  intros g c p x [ND F] R. split; [apply cats_update_nodup; exact ND|].
  rewrite Forall_forall in F |- *. intros [c' m'] I. unfold add_generator_at in I.
  apply (cats_update_in _ g c c' m' ND) in I. cbn [snd].
  destruct I as [[_ I]|(-> & m & -> & I)]; [exact (F _ I)|].
  assert (M : NoDup (texts m) /\ Forall (fun px => in_range (snd px)) m).
  { destruct I as [I|[-> _]]; [exact (F _ I)|]. split; constructor. }
  destruct M as [M1 M2]. split; [apply hm_insert_nodup; exact M1|].
  rewrite Forall_forall in M2 |- *. intros [q y] J. cbn [snd].
  destruct (hm_insert_entries m p x q y J) as [[_ ->]|[[-> _]|J']]; [exact R|exact R|exact (M2 _ J')].
Qed.

Lemma nodup_cats : forall (g : generators) c m m', NoDup (map fst g) -> In (c, m) g -> In (c, m') g -> m = m'.
Proof.
  induction g as [|[k n] g IH]; intros c m m' ND A B; [destruct A|]. inversion ND as [|? ? H1 H2]; subst.
  destruct A as [A|A], B as [B|B].
  - congruence.
  - injection A as -> ->. exfalso. apply H1. apply (in_map fst) in B. exact B.
  - injection B as -> ->. exfalso. apply H1. apply (in_map fst) in A. exact A.
  - exact (IH c m m' H2 A B).
Qed.

(** Adding a generator for a new path. *)
Lemma has_add_fresh : forall g c p x, generators_wf g ->
  (forall q y, has_generator g c q y -> path_expr q <> path_expr p) ->
  forall c' p' x', has_generator (add_generator_at c p x g) c' p' x' <->
                   (c' = c /\ p' = p /\ x' = x) \/ has_generator g c' p' x'.
Proof.
  intros g c p x [ND F] Fr c' p' x'.
  assert (Ins : forall m, In (c, m) g -> hm_insert p x m = m ++ [(p, x)]).
  { intros m I. apply hm_insert_fresh. intro J. unfold texts in J. apply in_map_iff in J. destruct J as ([q y] & E & J).
    apply (Fr q y); [exists m; split; assumption|exact E]. }
  unfold has_generator, add_generator_at. split.
  - intros (m' & I & J). apply (cats_update_in _ g c c' m' ND) in I.
    destruct I as [[_ I]|(-> & m & -> & I)]; [right; exists m'; split; assumption|].
    destruct I as [I|[-> _]].
    + rewrite (Ins m I) in J. apply in_app_or in J. destruct J as [J|[J|[]]].
      * right. exists m. split; assumption.
      * injection J as <- <-. left. repeat split.
    + cbn [hm_insert] in J. destruct J as [J|[]]. injection J as <- <-. left. repeat split.
  - intros [(-> & -> & ->)|(m & I & J)].
    + destruct (in_dec (fun a b => reflect_dec _ _ (gcat_eqb_spec a b)) c (map fst g)) as [Hi|Hn].
      * apply in_map_iff in Hi. destruct Hi as ([c0 m] & E & I). cbn [fst] in E. subst c0.
        exists (m ++ [(p, x)]). split.
        -- apply (cats_update_in _ g c c _ ND). right. split; [reflexivity|]. exists m. split; [symmetry; apply Ins; exact I|left; exact I].
        -- apply in_or_app. right. left. reflexivity.
      * exists [(p, x)]. split; [|left; reflexivity].
        apply (cats_update_in _ g c c _ ND). right. split; [reflexivity|]. exists []. split; [reflexivity|].
        right. split; [reflexivity|]. intros m I. apply Hn. apply (in_map fst) in I. exact I.
    + destruct (gcat_eqb_spec c' c) as [->|Nc].
      * exists (m ++ [(p, x)]). split.
        -- apply (cats_update_in _ g c c _ ND). right. split; [reflexivity|]. exists m. split; [symmetry; apply Ins; exact I|left; exact I].
        -- apply in_or_app. left. exact J.
      * exists m. split; [|exact J]. apply (cats_update_in _ g c c' _ ND). left. split; assumption.
Qed.

Definition add_all (c : gcat) (L : gen_map) (g : generators) : generators :=
  fold_left (fun g px => add_generator_at c (fst px) (snd px) g) L g.

Lemma has_add_all : forall c L g, generators_wf g -> NoDup (texts L) -> Forall (fun px => in_range (snd px)) L ->
  (forall q y t, has_generator g c q y -> In t (texts L) -> path_expr q <> t) ->
  generators_wf (add_all c L g) /\
  forall c' p' x', has_generator (add_all c L g) c' p' x' <-> (c' = c /\ In (p', x') L) \/ has_generator g c' p' x'.
Proof.
  intro c. induction L as [|[p x] L IH]; intros g W ND R Fr.
  - split; [exact W|]. intros c' p' x'. cbn. split; [intro H; right; exact H|intros [[_ []]|H]; exact H].
  - unfold add_all. cbn [fold_left fst snd]. inversion ND as [|? ? N1 N2]; subst. inversion R as [|? ? R1 R2]; subst.
    assert (Fr1 : forall q y, has_generator g c q y -> path_expr q <> path_expr p).
    { intros q y H. apply (Fr q y _ H). left. reflexivity. }
    pose proof (has_add_fresh g c p x W Fr1) as HA.
    destruct (IH (add_generator_at c p x g)) as [W' H'].
    + apply add_wf; assumption.
    + exact N2.
    + exact R2.
    + intros q y t H I. apply HA in H. destruct H as [(_ & -> & _)|H].
      * intro E. apply N1. rewrite E. exact I.
      * apply (Fr q y t H). right. exact I.
    + split; [exact W'|]. intros c' p' x'. fold (add_all c L (add_generator_at c p x g)). rewrite H'. rewrite HA. cbn [In].
      split.
      * intros [[-> H]|[(-> & -> & ->)|H]]; auto.
      * intros [[-> [H|H]]|H]; [injection H as <- <-; right; left; repeat split|left; split; [reflexivity|exact H]|right; right; exact H].
Qed.

(** * Writing a category *)
Definition written (x : generator) : json := match gen_to_json x with Some j => j | None => JNull end.

Lemma written_eq : forall x, not_array_contains x -> gen_to_json x = Some (written x).
Proof. intros x H. unfold written. destruct x; try contradiction; cbn; try reflexivity; destruct format + destruct type; reflexivity. Qed.

Lemma fold_insert_perm : forall A (k : A -> str) (v : A -> json) l acc,
  NoDup (map k l) -> (forall x, In x l -> ~ In (k x) (keys acc)) ->
  Permutation (fold_left (fun acc x => obj_insert (k x) (v x) acc) l acc) (map (fun x => (k x, v x)) l ++ acc).
Proof.
  intros A k v. induction l as [|x l IH]; intros acc ND Fr; cbn [fold_left map app]; [apply Permutation_refl|].
  inversion ND as [|? ? N1 N2]; subst.
  rewrite IH.
  - rewrite (obj_insert_fresh _ (k x) (v x) acc); [|apply Fr; left; reflexivity].
    apply Permutation_sym, Permutation_middle.
  - exact N2.
  - intros y I J. apply obj_insert_keys in J. destruct J as [J|J].
    + apply N1. rewrite <- J. apply in_map, I.
    + apply (Fr y); [right; exact I|exact J].
Qed.

Lemma gen_map_perm : forall c m, Forall (fun px => not_array_contains (snd px)) m -> NoDup (map (fun px => gen_key c (fst px)) m) ->
  Permutation (gen_map_to_json c m) (map (fun px => (gen_key c (fst px), written (snd px))) m).
Proof.
  intros c m F ND. unfold gen_map_to_json.
  assert (E : forall l acc, Forall (fun px => not_array_contains (snd px)) l ->
    fold_left (fun acc pg => match gen_to_json (snd pg) with Some j => obj_insert (gen_key c (fst pg)) j acc | None => acc end) l acc =
    fold_left (fun acc pg => obj_insert (gen_key c (fst pg)) (written (snd pg)) acc) l acc).
  { induction l as [|px l IH]; intros acc Fl; [reflexivity|]. inversion Fl; subst. cbn [fold_left]. rewrite written_eq by assumption. apply IH. assumption. }
  rewrite E by exact F.
  rewrite (fold_insert_perm _ (fun px : docpath * generator => gen_key c (fst px)) (fun px => written (snd px)) m [] ND).
  - rewrite app_nil_r. apply Permutation_refl.
  - intros x I [].
Qed.

Lemma key_of_carried : forall w c p, carried_key w c p -> single_key c = false ->
  (named_key c = true /\ p = push_field path_root (gen_key c p)) \/
  (named_key c = false /\ path_new_w w (gen_key c p) = Ok p).
Proof.
  intros w c p H S. destruct c; cbn in S; try discriminate; cbn [carried_key] in H.
  - left. split; [reflexivity|]. destruct H as [n ->]. reflexivity.
  - left. split; [reflexivity|]. destruct H as [n ->]. reflexivity.
  - right. split; [reflexivity|]. unfold gen_key. cbn [named_key]. unfold path_new_w. rewrite H. reflexivity.
  - right. split; [reflexivity|]. unfold gen_key. cbn [named_key]. unfold path_new_w. rewrite H. reflexivity.
Qed.

Lemma carried_keys_nodup : forall w c m, single_key c = false ->
  Forall (fun px => carried_key w c (fst px)) m -> NoDup (texts m) -> NoDup (map (fun px => gen_key c (fst px)) m).
Proof.
  intros w c m S. induction m as [|[p x] m IH]; intros F ND; [constructor|].
  inversion F as [|? ? F1 F2]; subst. inversion ND as [|? ? N1 N2]; subst. cbn [map fst].
  constructor; [|apply IH; assumption].
  intro I. apply N1. apply in_map_iff in I. destruct I as ([q y] & E & I). cbn [fst] in E.
  rewrite Forall_forall in F2. pose proof (F2 _ I) as F3. cbn [fst] in F3, F1.
  unfold texts. apply in_map_iff. exists (q, y). split; [|exact I]. cbn [fst].
  destruct (key_of_carried w c p F1 S) as [[A1 B1]|[A1 B1]], (key_of_carried w c q F3 S) as [[A2 B2]|[A2 B2]]; try congruence.
Qed.

(** * Reading a category *)
Lemma load_sub_written : forall w c p x g, carried_key w c p -> single_key c = false -> in_range x -> not_array_contains x ->
  load_sub w c g (gen_key c p, written x) = Ok (add_generator_at c p x g).
Proof.
  intros w c p x g K S R NA. unfold load_sub. cbn [fst snd].
  destruct (generator_back w x R NA) as (m & E & ty & T & G).
  unfold written. rewrite E. unfold parse_generator. rewrite T, G.
  destruct (key_of_carried w c p K S) as [[A B]|[A B]]; rewrite A; [rewrite <- B|rewrite B]; reflexivity.
Qed.

Lemma load_all_written : forall w c L g, single_key c = false ->
  Forall (fun px => carried_key w c (fst px) /\ in_range (snd px) /\ not_array_contains (snd px)) L ->
  foldM (load_sub w c) (map (fun px => (gen_key c (fst px), written (snd px))) L) g = Ok (add_all c L g).
Proof.
  intros w c. induction L as [|[p x] L IH]; intros g S F; [reflexivity|].
  inversion F as [|? ? (K & R & NA) F2]; subst. cbn [fst snd] in *. cbn [map foldM fst snd].
  rewrite load_sub_written by assumption. cbn [bind]. rewrite IH by assumption. reflexivity.
Qed.

(** * All categories *)
Definition cat_ok (w : world) (cm : gcat * gen_map) : Prop :=
  NoDup (texts (snd cm)) /\
  Forall (fun px => carried_key w (fst cm) (fst px) /\ in_range (snd px) /\ not_array_contains (snd px)) (snd cm).

Definition cat_written (cm : gcat * gen_map) : json :=
  if single_key (fst cm) then match snd cm with (_, x) :: _ => written x | [] => JNull end
  else JObj (gen_map_to_json (fst cm) (snd cm)).
Definition is_written (cm : gcat * gen_map) : bool :=
  if single_key (fst cm) then match snd cm with [] => false | _ => true end else true.

Lemma single_ok : forall w c m, single_key c = true -> cat_ok w (c, m) ->
  m = [] \/ exists x, m = [(path_empty, x)] /\ in_range x /\ not_array_contains x.
Proof.
  intros w c m S [ND F]. cbn [fst snd] in *.
  assert (K : forall p, carried_key w c p -> p = path_empty) by (intros p H; destruct c; try discriminate; exact H).
  destruct m as [|[p x] m]; [left; reflexivity|]. right.
  inversion F as [|? ? (F1 & F1' & F1'') F2]; subst. cbn [fst snd] in *. rewrite (K p F1) in *.
  destruct m as [|[q y] m]; [exists x; auto|].
  exfalso. inversion F2 as [|? ? (F3 & _) _]; subst. cbn [fst] in F3. rewrite (K q F3) in ND.
  inversion ND as [|? ? N1 _]; subst. apply N1. left. reflexivity.
Qed.

Lemma gcat_name_inj : forall a b, gcat_name a = gcat_name b -> a = b.
Proof. intros a b H. destruct a, b; try reflexivity; discriminate. Qed.

Lemma gens_to_map_perm : forall w g, NoDup (map fst g) -> Forall (cat_ok w) g ->
  Permutation (gens_to_map g) (map (fun cm => (gcat_name (fst cm), cat_written cm)) (filter is_written g)).
Proof.
  intros w g ND F. unfold gens_to_map.
  assert (E : forall l acc, Forall (cat_ok w) l ->
    fold_left (fun acc cm => match cm with (c, m) =>
        if single_key c then
          match or_else (hm_get path_empty m) (hm_get path_root m) with
          | Some x => match gen_to_json x with Some j => obj_insert (gcat_name c) j acc | None => acc end
          | None => acc
          end
        else obj_insert (gcat_name c) (JObj (gen_map_to_json c m)) acc end) l acc =
    fold_left (fun acc cm => obj_insert (gcat_name (fst cm)) (cat_written cm) acc) (filter is_written l) acc).
  { induction l as [|[c m] l IH]; intros acc Fl; [reflexivity|]. inversion Fl as [|? ? F1 F2]; subst.
    cbn [fold_left filter].
    change (is_written (c, m)) with (if single_key c then match m with [] => false | _ => true end else true).
    destruct (single_key c) eqn:S.
    - destruct (single_ok w c m S F1) as [->|(x & -> & R & NA)].
      + cbn [hm_get or_else]. apply IH. exact F2.
      + cbn [fold_left]. change (cat_written (c, [(path_empty, x)])) with (if single_key c then written x else JObj (gen_map_to_json c [(path_empty, x)])). rewrite S.
        change (hm_get path_empty [(path_empty, x)]) with (Some x). cbn [or_else]. rewrite (written_eq x NA). apply IH. exact F2.
    - cbn [fold_left]. change (cat_written (c, m)) with (if single_key c then match m with (_, x) :: _ => written x | [] => JNull end else JObj (gen_map_to_json c m)).
      rewrite S. apply IH. exact F2. }
  rewrite E by exact F.
  rewrite (fold_insert_perm _ (fun cm : gcat * gen_map => gcat_name (fst cm)) cat_written (filter is_written g) []).
  - rewrite app_nil_r. apply Permutation_refl.
  - clear E F. induction g as [|[c m] g IH]; [constructor|]. cbn [map fst] in ND. inversion ND as [|? ? N1 N2]; subst.
    cbn [filter]. destruct (is_written (c, m)); [|apply IH; exact N2]. cbn [map fst].
    constructor; [|apply IH; exact N2]. intro I. apply N1. apply in_map_iff in I. destruct I as ([c' m'] & E & I).
    cbn [fst] in E. apply gcat_name_inj in E. subst c'. apply filter_In in I. apply in_map_iff. exists (c, m'). split; [reflexivity|exact (proj1 I)].
  - intros x I [].
Qed.

Lemma gcat_parse_name : forall w c, gcat_parse w (gcat_name c) = Some c.
Proof. intros w c. destruct c; reflexivity. Qed.

Lemma load_cat_written : forall w c m g, cat_ok w (c, m) -> is_written (c, m) = true ->
  exists L, Permutation m L /\ load_cat w g (gcat_name c, cat_written (c, m)) = Ok (add_all c L g).
Proof.
  intros w c m g Hok Iw. pose proof Hok as [ND F]. cbn [fst snd] in ND, F.
  unfold is_written in Iw. cbn [fst snd] in Iw. unfold load_cat, cat_written. cbn [fst snd]. rewrite gcat_parse_name.
  destruct (single_key c) eqn:S.
  - destruct (single_ok w c m S Hok) as [->|(x & -> & R & NA)]; [discriminate|].
    exists [(path_empty, x)]. split; [apply Permutation_refl|].
    destruct (generator_back w x R NA) as (mm & E & ty & T & G). unfold written. rewrite E.
    unfold parse_generator. rewrite T, G. reflexivity.
  - assert (F1 : Forall (fun px => not_array_contains (snd px)) m) by (eapply Forall_impl; [|exact F]; intros ? (_ & _ & H); exact H).
    assert (F2 : Forall (fun px => carried_key w c (fst px)) m) by (eapply Forall_impl; [|exact F]; intros ? (H & _); exact H).
    pose proof (gen_map_perm c m F1 (carried_keys_nodup w c m S F2 ND)) as P.
    apply Permutation_map_inv in P. destruct P as (L & E & P). exists L. split; [exact P|].
    rewrite E. apply load_all_written; [exact S|]. eapply Permutation_Forall; [exact P|exact F].
Qed.

Lemma texts_perm : forall m L, Permutation m L -> NoDup (texts m) -> NoDup (texts L).
Proof. intros m L P. apply Permutation_NoDup. unfold texts. apply Permutation_map, P. Qed.

Lemma load_written : forall w G g, NoDup (map fst G) -> Forall (cat_ok w) G -> Forall (fun cm => is_written cm = true) G ->
  generators_wf g -> (forall c p x, has_generator g c p x -> ~ In c (map fst G)) ->
  exists g', foldM (load_cat w) (map (fun cm => (gcat_name (fst cm), cat_written cm)) G) g = Ok g' /\
    forall c p x, has_generator g' c p x <-> has_generator G c p x \/ has_generator g c p x.
Proof.
  intro w. induction G as [|[c m] G IH]; intros g ND F Fw W Fr.
  - exists g. split; [reflexivity|]. intros c p x. split; [auto|intros [(m & [] & _)|H]; exact H].
  - inversion ND as [|? ? N1 N2]; subst. inversion F as [|? ? F1 F2]; subst. inversion Fw as [|? ? Fw1 Fw2]; subst.
    destruct (load_cat_written w c m g F1 Fw1) as (L & P & E).
    cbn [map foldM fst]. rewrite E. cbn [bind].
    pose proof F1 as [Nd Fa]. cbn [fst snd] in Nd, Fa.
    destruct (has_add_all c L g W (texts_perm m L P Nd)) as [W' H'].
    + eapply Forall_impl; [|eapply Permutation_Forall; [exact P|exact Fa]]. intros ? (_ & H & _). exact H.
    + intros q y t H _ _. apply (Fr c q y H). left. reflexivity.
    + destruct (IH (add_all c L g) N2 F2 Fw2 W') as (g' & E' & Hg').
      * intros c' p x H. apply H' in H. destruct H as [[-> H]|H]; [exact N1|].
        intro I. apply (Fr c' p x H). right. exact I.
      * exists g'. split; [exact E'|]. intros c' p x. rewrite Hg', H'. unfold has_generator at 3.
        split.
        -- intros [(m' & I & J)|[[-> I]|H]]; [left; exists m'; split; [right; exact I|exact J]| |right; exact H].
           left. exists m. split; [left; reflexivity|]. eapply Permutation_in; [apply Permutation_sym; exact P|exact I].
        -- intros [(m' & [I|I] & J)|H]; [|left; exists m'; split; assumption|right; right; exact H].
           injection I as <- <-. right. left. split; [reflexivity|]. eapply Permutation_in; [exact P|exact J].
Qed.

Definition all_carried (w : world) (g : generators) : Prop :=
  forall c p x, has_generator g c p x -> carried_key w c p /\ not_array_contains x.

Lemma round_trip : forall w g, generators_wf g -> all_carried w g ->
  exists g', load_from_map w [] (gens_to_map g) = Ok g' /\ same_generators g g'.
Proof.
  intros w g [ND F] C.
  assert (Ok_ : Forall (cat_ok w) g).
  { rewrite Forall_forall in F |- *. intros [c m] I. destruct (F _ I) as [A B]. split; [exact A|]. cbn [fst snd] in *.
    rewrite Forall_forall in B |- *. intros [p x] J. destruct (C c p x) as [C1 C2]; [exists m; split; assumption|].
    split; [exact C1|]. split; [exact (B _ J)|exact C2]. }
  pose proof (gens_to_map_perm w g ND Ok_) as P. apply Permutation_map_inv in P. destruct P as (G & E & P).
  destruct (load_written w G []) as (g' & L & H).
  - eapply Permutation_NoDup; [apply Permutation_map; exact P|].
    clear -ND. induction g as [|[c m] g IH]; [constructor|]. cbn [map fst] in ND. inversion ND as [|? ? N1 N2]; subst.
    cbn [filter]. destruct (is_written (c, m)); [|apply IH; exact N2]. cbn [map fst]. constructor; [|apply IH; exact N2].
    intro I. apply N1. apply in_map_iff in I. destruct I as (cm & E & I). apply filter_In in I. apply in_map_iff. exists cm. split; [exact E|exact (proj1 I)].
  - eapply Permutation_Forall; [exact P|]. rewrite Forall_forall in Ok_ |- *. intros cm I. apply filter_In in I. apply Ok_, I.
  - eapply Permutation_Forall; [exact P|]. rewrite Forall_forall. intros cm I. apply filter_In in I. apply I.
  - split; constructor.
  - intros c p x (m & [] & _).
  - exists g'. unfold load_from_map. rewrite E. split; [exact L|]. intros c p x. rewrite H. split.
    + intros (m & I & J). left. exists m. split; [|exact J]. eapply Permutation_in; [exact P|]. apply filter_In. split; [exact I|].
      unfold is_written. cbn [fst snd]. destruct (single_key c); [|reflexivity]. destruct m; [destruct J|reflexivity].
    + intros [(m & I & J)|(m & [] & _)]. exists m. split; [|exact J].
      apply (Permutation_in _ (Permutation_sym P)) in I. apply filter_In in I. exact (proj1 I).
Qed.

(** * Whatever is read can be carried *)
Lemma parse_generator_inv : forall w c m sub g, generators_wf g -> all_carried w g ->
  (match sub with Some p => carried_key w c p | None => carried_key w c path_empty end) ->
  generators_wf (parse_generator w c m sub g) /\ all_carried w (parse_generator w c m sub g).
Proof.
  intros w c m sub g W C K. unfold parse_generator.
  destruct (obj_get (S_ "type") m) as [[]|]; try (split; assumption).
  destruct (gen_from_map w s m) as [x|] eqn:G; [|split; assumption].
  destruct (read_generator_ok w s m x G) as [R NA].
  assert (A : forall p, carried_key w c p -> generators_wf (add_generator_at c p x g) /\ all_carried w (add_generator_at c p x g)).
  { intros p Kp. split; [apply add_wf; assumption|]. intros c' q y (m' & I & J). destruct W as [ND _].
    unfold add_generator_at in I. apply (cats_update_in _ g c c' m' ND) in I.
    destruct I as [[_ I]|(-> & m0 & -> & I)]; [apply C; exists m'; split; assumption|].
    assert (C0 : forall q y, In (q, y) m0 -> carried_key w c q /\ not_array_contains y).
    { intros q0 y0 J0. destruct I as [I|[-> _]]; [apply C; exists m0; split; assumption|destruct J0]. }
    destruct (hm_insert_entries m0 p x q y J) as [[-> ->]|[[-> (z & J')]|J']].
    - split; assumption.
    - split; [exact (proj1 (C0 _ _ J'))|exact NA].
    - exact (C0 _ _ J'). }
  destruct sub as [p|]; apply A; exact K.
Qed.

Lemma path_new_carried : forall w c s p, named_key c = false -> single_key c = false -> path_new_w w s = Ok p -> carried_key w c p.
Proof.
  intros w c s p Nk Sk H. unfold path_new_w in H. destruct (path_new (uni_alpha w) (uni_numeric w) s) as [q| |] eqn:E; try discriminate.
  injection H as ->. assert (Es : path_expr p = s).
  { unfold path_new, bind in E. destruct (parse_path_exp _ _ s); try discriminate. injection E as <-. reflexivity. }
  destruct c; try discriminate; cbn [carried_key]; rewrite Es; exact E.
Qed.

Lemma loaded_carried : forall w M g, load_from_map w [] M = Ok g -> generators_wf g /\ all_carried w g.
Proof.
  intros w M g H. unfold load_from_map in H.
  apply (foldM_inv _ _ _ (fun g => generators_wf g /\ all_carried w g)) in H; [exact H| |].
  - intros b [k v] b' [W C] E. unfold load_cat in E. cbn [fst snd] in E.
    destruct v as [| | | | |m]; try (injection E as <-; split; assumption).
    destruct (gcat_parse w k) as [c|]; [|injection E as <-; split; assumption].
    destruct (single_key c) eqn:S.
    + injection E as <-. apply parse_generator_inv; try assumption. destruct c; try discriminate; reflexivity.
    + apply (foldM_inv _ _ _ (fun g => generators_wf g /\ all_carried w g)) in E; [exact E| |split; assumption].
      intros b0 [k0 v0] b0' [W0 C0] E0. unfold load_sub in E0. cbn [fst snd] in E0.
      destruct v0 as [| | | | |m0]; try (injection E0 as <-; split; assumption).
      destruct (named_key c) eqn:Nk.
      * injection E0 as <-. apply parse_generator_inv; try assumption.
        destruct c; try discriminate; cbn [carried_key]; exists k0; reflexivity.
      * unfold bind in E0. destruct (path_new_w w k0) as [p| |] eqn:Ep; try discriminate. injection E0 as <-.
        apply parse_generator_inv; try assumption. eapply path_new_carried; eassumption.
  - split; [split; constructor|]. intros c p x (m & [] & _).
Qed.

(** C70: generators written to a pact file come back exactly when every key can be carried
    and no generator is an array-contains one (those are not written). *)
Theorem C70_generators_come_back_exactly_when : forall w g, generators_wf g ->
  ((exists g', generators_from_json w (JObj [(S_ "generators", gens_to_json g)]) = Ok g' /\ same_generators g g') <->
   (forall c p x, has_generator g c p x -> carried_key w c p /\ not_array_contains x)).
Proof.
  intros w g W. unfold generators_from_json, gens_to_json.
  change (json_get (S_ "generators") (JObj [(S_ "generators", JObj (gens_to_map g))])) with (Some (JObj (gens_to_map g))).
  split.
  - intros (g' & L & S) c p x H. apply S in H. exact (proj2 (loaded_carried w _ _ L) c p x H).
  - intro C. apply round_trip; assumption.
Qed.

(** C70: what has been read from any JSON survives writing and reading again. *)
Theorem C70_loaded_generators_survive : forall w value g, generators_from_json w value = Ok g ->
  exists g', generators_from_json w (JObj [(S_ "generators", gens_to_json g)]) = Ok g' /\ same_generators g g'.
Proof.
  intros w value g H.
  assert (X : generators_wf g /\ all_carried w g).
  { unfold generators_from_json in H. destruct (json_get (S_ "generators") value) as [[]|];
      try (injection H as <-; split; [split; constructor|intros c p x (m & [] & _)]).
    exact (loaded_carried w _ _ H). }
  destruct X as [W C]. apply (C70_generators_come_back_exactly_when w g W). exact C.
Qed.

(** C70: a collection holds one generator per category and path; adding one replaces it and
    changes nothing else. *)
Theorem C70_adding_replaces : forall g c p x, generators_wf g -> in_range x ->
  generators_wf (add_generator_at c p x g) /\
  (exists q, path_expr q = path_expr p /\ has_generator (add_generator_at c p x g) c q x) /\
  (forall c' q y, c' <> c \/ path_expr q <> path_expr p ->
     (has_generator (add_generator_at c p x g) c' q y <-> has_generator g c' q y)).
Proof.
  intros g c p x W R. split; [apply add_wf; assumption|]. destruct W as [ND F].
  assert (Pres : forall m : gen_map, exists q, path_expr q = path_expr p /\ In (q, x) (hm_insert p x m)).
  { induction m as [|[k v] m (q & E & I)]; cbn [hm_insert]; [exists p; split; [reflexivity|left; reflexivity]|].
    unfold path_eqb. destruct (str_eqb_spec (path_expr p) (path_expr k)) as [Ek|Nk].
    - exists k. split; [symmetry; exact Ek|left; reflexivity].
    - exists q. split; [exact E|right; exact I]. }
  assert (Oth : forall (m : gen_map) q y, path_expr q <> path_expr p -> (In (q, y) (hm_insert p x m) <-> In (q, y) m)).
  { induction m as [|[k v] m IH]; intros q y N; cbn [hm_insert].
    - split; [intros [H|[]]; injection H as <- _; contradiction|intros []].
    - unfold path_eqb. destruct (str_eqb_spec (path_expr p) (path_expr k)) as [Ek|Nk]; cbn [In].
      + split; (intros [H|H]; [injection H as <- _; exfalso; apply N; symmetry; exact Ek|right; exact H]).
      + rewrite (IH q y N). reflexivity. }
  split.
  - destruct (in_dec (fun a b => reflect_dec _ _ (gcat_eqb_spec a b)) c (map fst g)) as [Hi|Hn].
    + apply in_map_iff in Hi. destruct Hi as ([c0 m] & E & I). cbn [fst] in E. subst c0.
      destruct (Pres m) as (q & Eq & J). exists q. split; [exact Eq|]. exists (hm_insert p x m). split; [|exact J].
      apply (cats_update_in _ g c c _ ND). right. split; [reflexivity|]. exists m. split; [reflexivity|left; exact I].
    + exists p. split; [reflexivity|]. exists [(p, x)]. split; [|left; reflexivity].
      apply (cats_update_in _ g c c _ ND). right. split; [reflexivity|]. exists []. split; [reflexivity|].
      right. split; [reflexivity|]. intros m I. apply Hn. apply (in_map fst) in I. exact I.
  - intros c' q y H. unfold has_generator, add_generator_at. split.
    + intros (m' & I & J). apply (cats_update_in _ g c c' m' ND) in I.
      destruct I as [[_ I]|(-> & m & -> & I)]; [exists m'; split; assumption|].
      destruct H as [H|H]; [contradiction|]. apply (Oth m q y H) in J.
      destruct I as [I|[-> _]]; [exists m; split; assumption|destruct J].
    + intros (m & I & J). destruct (gcat_eqb_spec c' c) as [->|Nc].
      * destruct H as [H|H]; [contradiction|]. exists (hm_insert p x m). split; [|apply (Oth m q y H); exact J].
        apply (cats_update_in _ g c c _ ND). right. split; [reflexivity|]. exists m. split; [reflexivity|left; exact I].
      * exists m. split; [|exact J]. apply (cats_update_in _ g c c' _ ND). left. split; assumption.
Qed.

(** C70 (why): a path generator set for the root path comes back under the empty path; a
    header generator below a header name loses its index. *)
Theorem C70_why_keys : forall w,
  (exists g g', generators_from_json w (JObj [(S_ "generators", gens_to_json g)]) = Ok g' /\
     has_generator g GcPath path_root GRandomBoolean /\ has_generator g' GcPath path_empty GRandomBoolean) /\
  (exists g g' p, generators_from_json w (JObj [(S_ "generators", gens_to_json g)]) = Ok g' /\
     has_generator g GcHeader (push_index p 0) GRandomBoolean /\ has_generator g' GcHeader p GRandomBoolean).
Proof.
  intro w. split.
  - exists [(GcPath, [(path_root, GRandomBoolean)])], [(GcPath, [(path_empty, GRandomBoolean)])].
    split; [reflexivity|]. split; eexists; (split; [left; reflexivity|left; reflexivity]).
  - exists [(GcHeader, [(push_index (push_field path_root (S_ "a")) 0, GRandomBoolean)])],
      [(GcHeader, [(push_field path_root (S_ "a"), GRandomBoolean)])], (push_field path_root (S_ "a")).
    split; [reflexivity|]. split; eexists; (split; [left; reflexivity|left; reflexivity]).
Qed.

Definition ex_generators : generators :=
  [(GcBody, [(push_star_index (push_field path_root (S_ "ids")), GRandomInt (-5) 2147483647);
             (push_field path_root (S_ "when"), GDateTime (Some (S_ "yyyy")) None)]);
   (GcHeader, [(push_field path_root (S_ "X-Id"), GProviderState (S_ "${id}") (Some DInteger))]);
   (GcStatus, [(path_empty, GRandomInt 200 204)])].

Example C70_example : forall w, generators_wf ex_generators /\
  (forall c p x, has_generator ex_generators c p x -> carried_key w c p /\ not_array_contains x) /\
  has_generator ex_generators GcStatus path_empty (GRandomInt 200 204).
Proof.
  intro w. split; [|split].
  - split.
    + repeat (constructor; [cbn; intuition discriminate|]). constructor.
    + apply Forall_cons; [split; [repeat (constructor; [cbn; intuition discriminate|]); constructor|]|
      apply Forall_cons; [split; [repeat (constructor; [cbn; intuition discriminate|]); constructor|]|
      apply Forall_cons; [split; [repeat (constructor; [cbn; intuition discriminate|]); constructor|]|apply Forall_nil]]];
      repeat (apply Forall_cons; [cbn; unfold i32_range; try exact I; lia|]); apply Forall_nil.
  - intros c p x (m & [H|[H|[H|[]]]] & J); injection H as <- <-.
    + destruct J as [J|[J|[]]]; injection J as <- <-; (split; [reflexivity|exact I]).
    + destruct J as [J|[]]; injection J as <- <-; (split; [eexists; reflexivity|exact I]).
    + destruct J as [J|[]]; injection J as <- <-; (split; [reflexivity|exact I]).
  - eexists. split; [right; right; left; reflexivity|left; reflexivity].
Qed.
