(** Lemmas for C71. *)
From Coq Require Import String List Arith NArith Lia Bool Permutation Sorted.
From Verif Require Import Base PathExp Json Text TextProofs Generators GenApply SpecGenApply.
Import ListNotations.
Open Scope N_scope.

Local Opaque show_N.

(** * The labels from the root to the addressed values *)
Fixpoint routes (path : list token) (v : json) {struct path} : list (list str) :=
  match path with
  | [] => [[]]
  | t :: rest =>
      match t, v with
      | TField name, JObj m =>
          match obj_get name m with Some x => map (cons name) (routes rest x) | None => [] end
      | TIndex i, JArr l =>
          match nth_error l (N.to_nat i) with Some x => map (cons (show_N i)) (routes rest x) | None => [] end
      | TStar, JObj m => flat_map (fun kv => map (cons (fst kv)) (routes rest (snd kv))) m
      | TStarIndex, JArr l =>
          flat_map (fun iv => map (cons (show_N (N.of_nat (fst iv)))) (routes rest (snd iv))) (combine (seq 0 (length l)) l)
      | _, _ => []
      end
  end.

Definition go_leaves (path : list str) : list (str * ptree) -> list (list str) :=
  fix go (cs : list (str * ptree)) : list (list str) :=
         match cs with
         | [] => []
         | kt :: cs' => leaf_paths (path ++ [fst kt]) (fst kt) (snd kt) ++ go cs'
         end.
Lemma leaf_paths_node : forall path label cs, leaf_paths path label (PNode cs) =
  (match label, cs with _ :: _, [] => [path] | _, _ => [] end) ++ go_leaves path cs.
Proof. reflexivity. Qed.

Lemma go_flat : forall path cs, go_leaves path cs = flat_map (fun kt => leaf_paths (path ++ [fst kt]) (fst kt) (snd kt)) cs.
Proof. intros path. induction cs as [|kt cs IH]; cbn [go_leaves flat_map]; [reflexivity|]. rewrite <- IH. reflexivity. Qed.

Lemma leaf_bound : forall path v pfx label l, ~ In TRoot path ->
  In l (leaf_paths pfx label (query_graph path v)) -> (length l <= length pfx + length path)%nat.
Proof.
  induction path as [|t path IH]; intros v pfx label l NR H.
  - cbn [query_graph] in H. rewrite leaf_paths_node in H. cbn [go_leaves] in H. rewrite app_nil_r in H.
    destruct label; cbn in H; [destruct H|destruct H as [<-|[]]]. lia.
  - assert (NR' : ~ In TRoot path) by (intro I; apply NR; right; exact I).
    assert (Base0 : In l (leaf_paths pfx label (PNode [])) -> (length l <= length pfx + length (t :: path))%nat).
    { intro B. rewrite leaf_paths_node in B. cbn [go_leaves] in B. rewrite app_nil_r in B.
      destruct label; cbn in B; [destruct B|destruct B as [<-|[]]]. lia. }
    assert (Step : forall cs, (forall kt, In kt cs -> exists x, snd kt = query_graph path x) ->
              In l (leaf_paths pfx label (PNode cs)) -> (length l <= length pfx + length (t :: path))%nat).
    { intros cs Hc B. destruct cs as [|c0 cs0]; [apply Base0, B|]. rewrite leaf_paths_node in B. apply in_app_or in B.
      destruct B as [B|B]; [destruct label; destruct B|]. rewrite go_flat in B. apply in_flat_map in B.
      destruct B as ([k tr] & I & B). destruct (Hc _ I) as [x E]. cbn [fst snd] in *. subst tr.
      apply (IH _ _ _ _ NR') in B. rewrite app_length in B. cbn [length] in *. lia. }
    destruct t; cbn [query_graph] in H.
    + exfalso. apply NR. left. reflexivity.
    + destruct v; try (apply Base0, H). destruct (obj_get name m); [|apply Base0, H].
      apply (Step _) in H; [exact H|]. intros kt [<-|[]]. eexists. reflexivity.
    + destruct v; try (apply Base0, H). destruct (nth_error l0 (N.to_nat i)).
      * apply (Step _) in H; [exact H|]. intros kt [<-|[]]. eexists. reflexivity.
      * apply (IH _ _ _ _ NR') in H. cbn [length]. lia.
    + destruct v; try (apply Base0, H). apply (Step _) in H; [exact H|].
      intros kt I. apply in_map_iff in I. destruct I as (kv & <- & _). eexists. reflexivity.
    + destruct v; try (apply Base0, H). apply (Step _) in H; [exact H|].
      intros kt I. apply in_map_iff in I. destruct I as (kv & <- & _). eexists. reflexivity.
Qed.

Lemma filter_none : forall A (f : A -> bool) l, (forall x, In x l -> f x = false) -> filter f l = [].
Proof.
  intros A f. induction l as [|x l IH]; intro H; [reflexivity|]. cbn [filter]. rewrite (H x) by (left; reflexivity).
  apply IH. intros y I. apply H. right. exact I.
Qed.
Lemma filter_flat : forall A B (f : B -> bool) (g : A -> list B) l, filter f (flat_map g l) = flat_map (fun x => filter f (g x)) l.
Proof. intros A B f g. induction l as [|x l IH]; [reflexivity|]. cbn [flat_map]. rewrite filter_app, IH. reflexivity. Qed.
Lemma map_flat : forall A B C (f : B -> C) (g : A -> list B) l, map f (flat_map g l) = flat_map (fun x => map f (g x)) l.
Proof. intros A B C f g. induction l as [|x l IH]; [reflexivity|]. cbn [flat_map]. rewrite map_app, IH. reflexivity. Qed.
Lemma flat_map_map : forall A B C (f : B -> list C) (g : A -> B) l, flat_map f (map g l) = flat_map (fun x => f (g x)) l.
Proof. intros A B C f g. induction l as [|x l IH]; [reflexivity|]. cbn [map flat_map]. rewrite IH. reflexivity. Qed.
Lemma flat_map_in_ext : forall A B (f g : A -> list B) l, (forall x, In x l -> f x = g x) -> flat_map f l = flat_map g l.
Proof.
  intros A B f g. induction l as [|x l IH]; intro H; [reflexivity|]. cbn [flat_map]. rewrite (H x) by (left; reflexivity).
  rewrite IH; [reflexivity|]. intros y I. apply H. right. exact I.
Qed.

Definition of_length (n : nat) : list str -> bool := fun l => Nat.eqb (length l) n.

Lemma leaves_routes : forall path v pfx label, ~ In TRoot path -> plain_keys path v ->
  (path = [] -> label <> []) ->
  filter (of_length (length pfx + length path)) (leaf_paths pfx label (query_graph path v)) = map (app pfx) (routes path v).
Proof.
  induction path as [|t path IH]; intros v pfx label NR P Ne.
  - cbn [query_graph routes map]. rewrite leaf_paths_node. cbn [go_leaves length]. rewrite app_nil_r.
    destruct label as [|c label]; [exfalso; apply Ne; reflexivity|]. cbn [filter]. unfold of_length.
    rewrite Nat.add_0_r, Nat.eqb_refl, app_nil_r. reflexivity.
  - assert (NR' : ~ In TRoot path) by (intro I; apply NR; right; exact I).
    assert (Base0 : filter (of_length (length pfx + length (t :: path))) (leaf_paths pfx label (PNode [])) = []).
    { apply filter_none. intros l B. rewrite leaf_paths_node in B. cbn [go_leaves] in B. rewrite app_nil_r in B.
      destruct label; cbn in B; [destruct B|destruct B as [<-|[]]]. unfold of_length. apply Nat.eqb_neq. cbn [length]. lia. }
    assert (Step : forall (cs : list (str * json)),
       (forall k x, In (k, x) cs -> plain_keys path x /\ (path = [] -> k <> [])) ->
       filter (of_length (length pfx + length (t :: path))) (leaf_paths pfx label (PNode (map (fun kv => (fst kv, query_graph path (snd kv))) cs))) =
       map (app pfx) (flat_map (fun kv => map (cons (fst kv)) (routes path (snd kv))) cs)).
    { intros cs Hc. destruct cs as [|c0 cs0]; [exact Base0|]. rewrite leaf_paths_node, filter_app.
      assert (Z : filter (of_length (length pfx + length (t :: path)))
                (match label with [] => [] | _ :: _ => match map (fun kv => (fst kv, query_graph path (snd kv))) (c0 :: cs0) with [] => [pfx] | _ :: _ => [] end end) = [])
        by (destruct label; reflexivity).
      rewrite Z. cbn [app]. rewrite go_flat, flat_map_map, filter_flat, map_flat.
      apply flat_map_in_ext. intros [k x] I. cbn [fst snd]. destruct (Hc k x I) as [H1 H2].
      replace (length pfx + length (t :: path))%nat with (length (pfx ++ [k]) + length path)%nat by (rewrite app_length; cbn [length]; lia).
      rewrite IH by assumption. rewrite map_map. apply map_ext. intro r. rewrite <- app_assoc. reflexivity. }
    destruct t; cbn [query_graph routes].
    + exfalso. apply NR. left. reflexivity.
    + destruct v; try exact Base0. cbn [plain_keys] in P. destruct (obj_get name m) as [x|] eqn:G; [|exact Base0].
      assert (I : In (name, x) m) by (apply obj_get_in; exact G).
      destruct (P x I) as (P1 & P2 & P3).
      pose proof (Step [(name, x)]) as St. cbn [map flat_map fst snd] in St. rewrite app_nil_r in St. apply St.
      intros k y [E|[]]. injection E as <- <-. split; [exact P3|exact P2].
    + destruct v; try exact Base0. cbn [plain_keys] in P. destruct (nth_error l (N.to_nat i)) as [x|] eqn:G.
      * pose proof (Step [(show_N i, x)]) as St. cbn [map flat_map fst snd] in St. rewrite app_nil_r in St. apply St.
        intros k y [E|[]]. injection E as <- <-. split; [apply P; reflexivity|intros _; apply show_N_nonempty].
      * apply filter_none. intros r B. apply (leaf_bound _ _ _ _ _ NR') in B. unfold of_length. apply Nat.eqb_neq. cbn [length]. lia.
    + destruct v; try exact Base0. cbn [plain_keys] in P. apply Step. intros k x I. destruct (P k x I) as (P1 & P2 & P3).
      split; [exact P3|exact P2].
    + destruct v; try exact Base0. cbn [plain_keys] in P.
      pose proof (Step (map (fun iv => (show_N (N.of_nat (fst iv)), snd iv)) (combine (seq 0 (length l)) l))) as St.
      rewrite map_map, flat_map_map in St. cbn [fst snd] in St. apply St.
      intros k x I. apply in_map_iff in I. destruct I as ([n y] & E & I). cbn [fst snd] in E. injection E as <- <-.
      apply in_combine_r in I. split; [apply P; exact I|intros _; apply show_N_nonempty].
Qed.

(** * Pointers *)
Lemma digits_plain : forall s, all_digits s = true -> plain_key s.
Proof.
  intros s H. unfold all_digits in H. rewrite forallb_forall in H.
  split; intro I; apply H in I; apply is_digit_range in I; lia.
Qed.

Lemma routes_plain : forall path v r, plain_keys path v -> In r (routes path v) -> Forall plain_key r /\ length r = length path.
Proof.
  induction path as [|t path IH]; intros v r P H; cbn [routes] in H.
  - destruct H as [<-|[]]. split; [constructor|reflexivity].
  - destruct t; destruct v; try (destruct H); cbn [plain_keys] in P.
    + destruct (obj_get name m) as [x|] eqn:G; [|destruct H]. apply in_map_iff in H. destruct H as (r' & <- & H).
      destruct (P x (obj_get_in _ _ _ _ G)) as (P1 & _ & P3). destruct (IH x r' P3 H) as [A B].
      split; [constructor; assumption|cbn [length]; rewrite B; reflexivity].
    + destruct (nth_error l (N.to_nat i)) as [x|] eqn:G; [|destruct H]. apply in_map_iff in H. destruct H as (r' & <- & H).
      destruct (IH x r' (P x eq_refl) H) as [A B].
      split; [constructor; [apply digits_plain, show_N_digits|assumption]|cbn [length]; rewrite B; reflexivity].
    + apply in_flat_map in H. destruct H as ([k x] & I & H). cbn [fst snd] in H. apply in_map_iff in H. destruct H as (r' & <- & H).
      destruct (P k x I) as (P1 & _ & P3). destruct (IH x r' P3 H) as [A B].
      split; [constructor; assumption|cbn [length]; rewrite B; reflexivity].
    + apply in_flat_map in H. destruct H as ([n x] & I & H). cbn [fst snd] in H. apply in_map_iff in H. destruct H as (r' & <- & H).
      apply in_combine_r in I. destruct (IH x r' (P x I) H) as [A B].
      split; [constructor; [apply digits_plain, show_N_digits|assumption]|cbn [length]; rewrite B; reflexivity].
Qed.

Lemma replace2_none : forall a b c s, ~ In a s -> replace2 a b c s = s.
Proof.
  intros a b c. induction s as [|x s IH]; intro H; [reflexivity|]. cbn [replace2]. destruct s as [|y s]; [reflexivity|].
  assert (E : (x =? a) = false) by (apply N.eqb_neq; intro; apply H; left; assumption).
  rewrite E. cbn [andb]. f_equal. apply IH. intro I. apply H. right. exact I.
Qed.

Lemma split_join : forall r, r <> [] -> Forall plain_key r -> split_on 47 (join_with [47] r) = r.
Proof.
  induction r as [|k r IH]; intros Ne F; [contradiction|]. inversion F as [|? ? F1 F2]; subst.
  destruct r as [|k2 r].
  - cbn [join_with]. apply split_on_none. apply F1.
  - change (join_with [47] (k :: k2 :: r)) with (k ++ 47 :: join_with [47] (k2 :: r)).
    rewrite split_on_app by apply F1. rewrite IH; [reflexivity|discriminate|exact F2].
Qed.

Lemma pointer_route : forall r, r <> [] -> Forall plain_key r -> pointer_tokens (join_with [47] ([] :: r)) = Some r.
Proof.
  intros r Ne F. destruct r as [|k r]; [contradiction|].
  change (join_with [47] ([] :: k :: r)) with (47 :: join_with [47] (k :: r)).
  unfold pointer_tokens. rewrite N.eqb_refl. f_equal.
  assert (Es : split_on 47 (47 :: join_with [47] (k :: r)) = [] :: k :: r).
  { change (47 :: join_with [47] (k :: r)) with (([] : str) ++ 47 :: join_with [47] (k :: r)).
    rewrite split_on_app by (intros []). rewrite split_join; [reflexivity|discriminate|exact F]. }
  rewrite Es. cbn [tl].
  clear -F. induction F as [|x l Hx F IH]; [reflexivity|]. cbn [map]. rewrite IH. f_equal.
  rewrite (replace2_none 126 49 47 x) by apply Hx. apply replace2_none, Hx.
Qed.

(** * Applying at routes *)
Section Apply.
Variable gen : nat -> json -> option json.

Fixpoint apply_routes (n : nat) (rs : list (list str)) (v : json) : json :=
  match rs with
  | [] => v
  | r :: rs' => apply_routes (S n) rs' (update_at r (generated (gen n)) v)
  end.

Lemma apply_pointers_routes : forall rs n v, Forall (fun r => r <> [] /\ Forall plain_key r) rs ->
  apply_pointers gen n (map (join_with [47]) (map (cons []) rs)) v = apply_routes n rs v.
Proof.
  induction rs as [|r rs IH]; intros n v F; [reflexivity|]. inversion F as [|? ? [F1 F1'] F2]; subst.
  cbn [map apply_pointers apply_routes]. rewrite pointer_route by assumption. apply IH. exact F2.
Qed.

Lemma apply_routes_app : forall a b n v, apply_routes n (a ++ b) v = apply_routes (n + length a) b (apply_routes n a v).
Proof.
  induction a as [|r a IH]; intros b n v; cbn [app apply_routes length]; [rewrite Nat.add_0_r; reflexivity|].
  rewrite IH. f_equal. lia.
Qed.

Lemma obj_update_at : forall pre k x post f, ~ In k (keys pre) ->
  obj_update k f (pre ++ (k, x) :: post) = pre ++ (k, f x) :: post.
Proof.
  induction pre as [|[k' y] pre IH]; intros k x post f H; cbn [app obj_update].
  - rewrite str_eqb_refl. reflexivity.
  - destruct (str_eqb_spec k k') as [->|N]; [exfalso; apply H; left; reflexivity|].
    rewrite IH; [reflexivity|]. intro I. apply H. right. exact I.
Qed.

Lemma apply_routes_obj : forall rs n pre k x post, ~ In k (keys pre) ->
  apply_routes n (map (cons k) rs) (JObj (pre ++ (k, x) :: post)) = JObj (pre ++ (k, apply_routes n rs x) :: post).
Proof.
  induction rs as [|r rs IH]; intros n pre k x post H; [reflexivity|].
  cbn [map apply_routes update_at]. rewrite obj_update_at by exact H. apply IH. exact H.
Qed.

Lemma show_head : forall f n acc, n <> 0 -> n < 2 ^ N.of_nat f -> exists c rest, show_aux f n acc = c :: rest /\ c <> 48.
Proof.
  induction f as [|f IH]; intros n acc Nz Hn; [cbn in Hn; lia|]. cbn [show_aux].
  assert (Hdiv : n = 10 * (n / 10) + n mod 10) by (apply N.div_mod; lia).
  destruct (N.eqb_spec (n / 10) 0) as [E|E].
  - eexists _, _. split; [reflexivity|]. rewrite E in Hdiv. revert Hdiv. generalize (n mod 10). intros m Hd. lia.
  - apply IH; [exact E|]. rewrite Nat2N.inj_succ, N.pow_succ_r' in Hn.
    assert (Hm : n mod 10 < 10) by (apply N.mod_lt; lia). revert Hdiv Hm Hn. generalize (n / 10), (n mod 10), (2 ^ N.of_nat f). lia.
Qed.
Lemma index_show : forall n, pointer_index (show_N n) = Some n.
Proof.
  intro n. pose proof (show_N_digits n) as D. pose proof (show_N_value n) as V. pose proof (show_N_nonempty n) as Ne.
  destruct (N.eqb_spec n 0) as [->|Nz]; [reflexivity|].
  destruct (show_head (S (N.size_nat n)) n [] Nz (N_size_nat_bound n)) as (c & rest & E & Hc).
  change (show_aux (S (N.size_nat n)) n []) with (show_N n) in E. unfold pointer_index.
  rewrite E in *. apply N.eqb_neq in Hc. rewrite Hc. cbn [andb]. rewrite D, V. reflexivity.
Qed.

Lemma list_update_at : forall pre x post f, list_update (length pre) f (pre ++ x :: post) = pre ++ f x :: post.
Proof. induction pre as [|y pre IH]; intros x post f; cbn [length app list_update]; [reflexivity|]. rewrite IH. reflexivity. Qed.

Lemma apply_routes_arr : forall rs n pre x post,
  apply_routes n (map (cons (show_N (N.of_nat (length pre)))) rs) (JArr (pre ++ x :: post)) = JArr (pre ++ apply_routes n rs x :: post).
Proof.
  induction rs as [|r rs IH]; intros n pre x post; [reflexivity|].
  cbn [map apply_routes update_at]. rewrite index_show, Nat2N.id, list_update_at. apply IH.
Qed.

Definition R : json -> json -> Prop := fun x y => exists n, y = generated (gen n) x.

Lemma routes_change : forall path v n, ~ In TRoot path -> json_wf v -> changed R path v (apply_routes n (routes path v) v).
Proof.
  induction path as [|t path IH]; intros v n NR W.
  - cbn [routes apply_routes update_at changed]. exists n. reflexivity.
  - assert (NR' : ~ In TRoot path) by (intro I; apply NR; right; exact I).
    destruct t; cbn [changed routes].
    + exfalso. apply NR. left. reflexivity.
    + destruct v; try reflexivity. apply json_wf_obj in W. destruct W as [So W]. apply sorted_nodup in So.
      destruct (obj_get name m) as [x|] eqn:G.
      * apply obj_get_in in G. apply in_split in G. destruct G as (pre & post & ->).
        unfold keys in So. rewrite map_app in So. cbn [map fst] in So. apply NoDup_remove_2 in So.
        rewrite apply_routes_obj by (intro I; apply So; apply in_or_app; left; exact I).
        eexists. split; [reflexivity|].
        assert (Same : forall l : list (str * json), ~ In name (map fst l) ->
          Forall2 (fun kv kv' => fst kv' = fst kv /\
            (if str_eqb (fst kv) name then changed R path (snd kv) (snd kv') else snd kv' = snd kv)) l l).
        { induction l as [|[k y] l IHl]; intro Hn; constructor.
          - cbn [fst snd]. split; [reflexivity|]. destruct (str_eqb_spec k name) as [->|_]; [exfalso; apply Hn; left; reflexivity|reflexivity].
          - apply IHl. intro I. apply Hn. right. exact I. }
        apply Forall2_app; [apply Same; intro I; apply So; apply in_or_app; left; exact I|].
        constructor; [|apply Same; intro I; apply So; apply in_or_app; right; exact I].
        cbn [fst snd]. split; [reflexivity|]. rewrite str_eqb_refl. apply IH; [exact NR'|].
        rewrite Forall_forall in W. apply (W (name, x)). apply in_or_app. right. left. reflexivity.
      * cbn [apply_routes]. exists m. split; [reflexivity|]. apply obj_get_none in G. clear -G.
        induction m as [|[k y] m IHm]; constructor.
        -- cbn [fst snd]. split; [reflexivity|]. destruct (str_eqb_spec k name) as [->|_]; [exfalso; apply G; left; reflexivity|reflexivity].
        -- apply IHm. intro I. apply G. right. exact I.
    + destruct v; try reflexivity. apply json_wf_arr in W. destruct (nth_error l (N.to_nat i)) as [x|] eqn:G.
      * pose proof (nth_error_In _ _ G) as Ix. apply nth_error_split in G. destruct G as (pre & post & -> & L).
        replace i with (N.of_nat (length pre)) by lia. rewrite apply_routes_arr.
        eexists. split; [reflexivity|]. split; [rewrite !app_length; reflexivity|].
        intros k y y' Hy Hy'. destruct (N.eqb_spec (N.of_nat k) (N.of_nat (length pre))) as [E|E].
        -- apply Nat2N.inj in E. subst k. rewrite nth_error_app2, Nat.sub_diag in Hy, Hy' by lia. cbn in Hy, Hy'.
           injection Hy as <-. injection Hy' as <-. apply IH; [exact NR'|]. rewrite Forall_forall in W. apply W, Ix.
        -- assert (Nk : k <> length pre) by (intro; apply E; lia). destruct (le_lt_dec (length pre) k) as [Ge|Lt].
           ++ rewrite nth_error_app2 in Hy, Hy' by lia. destruct (k - length pre)%nat eqn:Ek; [lia|]. cbn in Hy, Hy'.
              rewrite Hy in Hy'. injection Hy' as <-. reflexivity.
           ++ rewrite nth_error_app1 in Hy, Hy' by lia. rewrite Hy in Hy'. injection Hy' as <-. reflexivity.
      * cbn [apply_routes]. exists l. split; [reflexivity|]. split; [reflexivity|]. intros k y y' Hy Hy'.
        rewrite Hy in Hy'. injection Hy' as <-. destruct (N.eqb_spec (N.of_nat k) i) as [E|E]; [|reflexivity].
        exfalso. subst i. rewrite Nat2N.id in G. congruence.
    + destruct v; try reflexivity. apply json_wf_obj in W. destruct W as [So W]. apply sorted_nodup in So.
      assert (Gm : forall todo done n, NoDup (keys (done ++ todo)) -> Forall (fun kv => json_wf (snd kv)) todo ->
        exists todo', apply_routes n (flat_map (fun kv => map (cons (fst kv)) (routes path (snd kv))) todo) (JObj (done ++ todo)) = JObj (done ++ todo') /\
          Forall2 (fun kv kv' => fst kv' = fst kv /\ changed R path (snd kv) (snd kv')) todo todo').
      { induction todo as [|[k x] todo IHt]; intros done n0 ND F; cbn [flat_map fst snd]; [exists []; split; [reflexivity|constructor]|].
        inversion F as [|? ? F1 F2]; subst. cbn [snd] in F1. rewrite apply_routes_app.
        assert (Nk : ~ In k (keys done)).
        { unfold keys in ND. rewrite map_app in ND. cbn [map fst] in ND. apply NoDup_remove_2 in ND. intro I. apply ND. apply in_or_app. left. exact I. }
        rewrite apply_routes_obj by exact Nk.
        destruct (IHt (done ++ [(k, apply_routes n0 (routes path x) x)]) (n0 + length (map (cons k) (routes path x)))%nat) as (todo' & E & F').
        - unfold keys in *. rewrite !map_app in *. cbn [map fst] in *. rewrite <- app_assoc. exact ND.
        - exact F2.
        - rewrite <- app_assoc in E. cbn [app] in E. rewrite E. rewrite <- app_assoc. cbn [app].
          eexists. split; [reflexivity|]. constructor; [|exact F']. cbn [fst snd]. split; [reflexivity|]. apply IH; assumption. }
      destruct (Gm m [] n So W) as (m' & E & F). cbn [app] in E. rewrite E. exists m'. split; [reflexivity|exact F].
    + destruct v; try reflexivity. apply json_wf_arr in W.
      assert (Ga : forall todo done n, Forall json_wf todo ->
        exists todo', apply_routes n (flat_map (fun iv => map (cons (show_N (N.of_nat (fst iv)))) (routes path (snd iv))) (combine (seq (length done) (length todo)) todo)) (JArr (done ++ todo)) = JArr (done ++ todo') /\
          Forall2 (changed R path) todo todo').
      { induction todo as [|x todo IHt]; intros done n0 F; [exists []; split; [reflexivity|constructor]|].
        inversion F as [|? ? F1 F2]; subst. cbn [length seq combine flat_map fst snd]. rewrite apply_routes_app, apply_routes_arr.
        destruct (IHt (done ++ [apply_routes n0 (routes path x) x]) (n0 + length (map (cons (show_N (N.of_nat (length done)))) (routes path x)))%nat F2) as (todo' & E & F').
        rewrite app_length in E. cbn [length] in E. rewrite Nat.add_1_r in E. rewrite <- app_assoc in E. cbn [app] in E.
        rewrite E. rewrite <- app_assoc. cbn [app]. eexists. split; [reflexivity|]. constructor; [|exact F']. apply IH; assumption. }
      destruct (Ga l [] n W) as (l' & E & F). cbn [app length] in E. rewrite E. exists l'. split; [reflexivity|exact F].
Qed.
End Apply.
