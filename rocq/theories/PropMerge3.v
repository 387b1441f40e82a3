(** C57: plugin data of merged V4 pacts. *)
From Coq Require Import Ascii String List Arith NArith ZArith Lia Bool Permutation Sorted.
From Verif Require Import Base PathExp Json Text MatchingRules Matchers JsonCompare Headers Query ContentType Http
  SpecMatch CompareProofs3 Merge SpecMerge MergeProofs PropMerge PropMerge2.
Import ListNotations.
Open Scope N_scope.

(** The data of a plugin in a pact. *)
Definition is_plugin (n v : str) (p : plugin) : bool := str_eqb (pl_name p) n && str_eqb (pl_version p) v.
Definition plugin_data (n v : str) (ps : list plugin) : option (list (str * json)) :=
  match find (is_plugin n v) ps with Some p => Some (pl_config p) | None => None end.
(** Every plugin once. *)
Definition plugins_distinct (ps : list plugin) : Prop := NoDup (map (fun p => (pl_name p, pl_version p)) ps).
Definition configs_ok (ps : list plugin) : Prop :=
  Forall (fun p => NoDup (keys (pl_config p)) /\ Forall (fun kv => json_wf (snd kv)) (pl_config p)) ps.
(** The two configurations combined: keys of only one as they are there, keys of both deeply merged. *)
Definition config_combined (a b c : list (str * json)) : Prop :=
  forall k, match obj_get k a, obj_get k b with
            | Some x, Some y => exists z, obj_get k c = Some z /\ merged x y z
            | Some x, None => obj_get k c = Some x
            | None, o => obj_get k c = o
            end.

Lemma config_merge_get : forall d c k, NoDup (keys d) ->
  obj_get k (config_merge c d) =
  match obj_get k d with
  | Some y => match obj_get k c with Some x => Some (json_deep_merge x y) | None => Some y end
  | None => obj_get k c
  end.
Proof.
  induction d as [|[j v] d IH]; intros c k ND; [reflexivity|]. inversion ND as [|? ? NI ND']; subst.
  cbn [config_merge]. rewrite IH by exact ND'. rewrite obj_insert_get. cbn [obj_get].
  destruct (str_eqb_spec k j) as [->|N].
  - assert (obj_get j d = None) as -> by (apply obj_get_none; exact NI). destruct (obj_get j c); reflexivity.
  - reflexivity.
Qed.
Lemma is_plugin_iff : forall n v p, is_plugin n v p = true <-> pl_name p = n /\ pl_version p = v.
Proof.
  intros n v p. unfold is_plugin. destruct (str_eqb_spec (pl_name p) n), (str_eqb_spec (pl_version p) v); cbn; intuition congruence.
Qed.
Lemma plugin_data_cons : forall n v p ps, plugin_data n v (p :: ps) = if is_plugin n v p then Some (pl_config p) else plugin_data n v ps.
Proof. intros. unfold plugin_data. cbn [find]. destruct (is_plugin n v p); reflexivity. Qed.

Lemma add_plugin_data_get : forall ps o n v,
  plugin_data n v (add_plugin_data ps o) =
  if is_plugin n v o then
    match plugin_data n v ps with Some c => Some (config_merge c (pl_config o)) | None => Some (pl_config o) end
  else plugin_data n v ps.
Proof.
  induction ps as [|p ps IH]; intros o n v.
  - cbn [add_plugin_data]. rewrite plugin_data_cons. reflexivity.
  - cbn [add_plugin_data]. destruct (str_eqb (pl_name p) (pl_name o) && str_eqb (pl_version p) (pl_version o)) eqn:E.
    + rewrite !plugin_data_cons. cbn [pl_config].
      change (str_eqb (pl_name p) (pl_name o) && str_eqb (pl_version p) (pl_version o)) with (is_plugin (pl_name o) (pl_version o) p) in E.
      apply is_plugin_iff in E. destruct E as [E1 E2].
      change (is_plugin n v (mkPlugin (pl_name p) (pl_version p) (config_merge (pl_config p) (pl_config o)))) with (is_plugin n v p).
      assert (Q : is_plugin n v o = is_plugin n v p) by (unfold is_plugin; rewrite E1, E2; reflexivity).
      rewrite Q. destruct (is_plugin n v p); reflexivity.
    + rewrite !plugin_data_cons, IH. destruct (is_plugin n v p) eqn:Pp; [|reflexivity].
      destruct (is_plugin n v o) eqn:Po; [|reflexivity].
      apply is_plugin_iff in Pp, Po. destruct Pp, Po.
      assert (X : str_eqb (pl_name p) (pl_name o) && str_eqb (pl_version p) (pl_version o) = true).
      { apply (is_plugin_iff (pl_name o) (pl_version o) p). split; congruence. }
      congruence.
Qed.
Lemma add_plugin_ids : forall ps o, exists add,
  map (fun p => (pl_name p, pl_version p)) (add_plugin_data ps o) = map (fun p => (pl_name p, pl_version p)) ps ++ add /\
  (add = [] \/ (add = [(pl_name o, pl_version o)] /\ ~ In (pl_name o, pl_version o) (map (fun p => (pl_name p, pl_version p)) ps))).
Proof.
  induction ps as [|p ps IH]; intro o; cbn [add_plugin_data].
  - exists [(pl_name o, pl_version o)]. split; [reflexivity|]. right. split; [reflexivity|intros []].
  - destruct (str_eqb (pl_name p) (pl_name o) && str_eqb (pl_version p) (pl_version o)) eqn:E.
    + exists []. rewrite app_nil_r. split; [reflexivity|left; reflexivity].
    + destruct (IH o) as [add [Ea D]]. exists add. cbn [map app]. split; [f_equal; exact Ea|].
      destruct D as [->|[-> NI]]; [left; reflexivity|]. right. split; [reflexivity|].
      intros [X|X]; [|contradiction]. injection X as X1 X2.
      assert (Y : is_plugin (pl_name o) (pl_version o) p = true) by (apply is_plugin_iff; split; assumption).
      unfold is_plugin in Y. congruence.
Qed.

Lemma add_all : forall os ps n v, plugins_distinct os ->
  plugin_data n v (fold_left add_plugin_data os ps) =
  match plugin_data n v ps, plugin_data n v os with
  | Some c, Some d => Some (config_merge c d)
  | Some c, None => Some c
  | None, o => o
  end.
Proof.
  induction os as [|o os IH]; intros ps n v D.
  - cbn [fold_left]. change (plugin_data n v []) with (@None (list (str * json))). destruct (plugin_data n v ps); reflexivity.
  - cbn [fold_left]. inversion D as [|? ? NI D']; subst. rewrite IH by exact D'. rewrite add_plugin_data_get, plugin_data_cons.
    destruct (is_plugin n v o) eqn:E.
    + assert (N : plugin_data n v os = None).
      { unfold plugin_data. destruct (find (is_plugin n v) os) as [q|] eqn:F; [|reflexivity].
        apply find_some in F. destruct F as [Hq Q]. apply is_plugin_iff in Q, E. destruct Q, E. destruct NI.
        apply in_map_iff. exists q. split; [congruence|exact Hq]. }
      rewrite N. destruct (plugin_data n v ps); reflexivity.
    + reflexivity.
Qed.

(** A merged V4 pact has the plugins of both, each once; the configuration of a plugin that
    both have is combined key by key, and that of any other is as it was. *)
Theorem C57_plugins_of_both : forall p q m,
  merge (PV4 p) (PV4 q) = Ok m ->
  plugins_distinct (vp_plugins p) -> plugins_distinct (vp_plugins q) ->
  configs_ok (vp_plugins p) -> configs_ok (vp_plugins q) ->
  exists r, m = PV4 r /\ plugins_distinct (vp_plugins r) /\
  forall n v, match plugin_data n v (vp_plugins p), plugin_data n v (vp_plugins q) with
              | Some a, Some b => exists c, plugin_data n v (vp_plugins r) = Some c /\ config_combined a b c
              | Some a, None => plugin_data n v (vp_plugins r) = Some a
              | None, o => plugin_data n v (vp_plugins r) = o
              end.
Proof.
  intros p q m H Dp Dq Cp Cq. cbn [merge] in H. unfold v4_merge in H.
  destruct (who_eqb _ _); [|discriminate]. destruct (all_some _); [|discriminate]. injection H as <-.
  eexists. split; [reflexivity|]. cbn [vp_plugins]. split.
  - clear Cp Cq Dq. revert Dp. generalize (vp_plugins p). induction (vp_plugins q) as [|o os IH]; intros ps D; [exact D|].
    cbn [fold_left]. apply IH. unfold plugins_distinct. destruct (add_plugin_ids ps o) as [add [-> E]].
    destruct E as [->|[-> NI]]; [rewrite app_nil_r; exact D|].
    apply Permutation_NoDup with (l := (pl_name o, pl_version o) :: map (fun p => (pl_name p, pl_version p)) ps);
      [apply Permutation_cons_append|]. constructor; assumption.
  - intros n v. rewrite add_all by exact Dq.
    destruct (plugin_data n v (vp_plugins p)) as [a|] eqn:Ea; destruct (plugin_data n v (vp_plugins q)) as [b|] eqn:Eb; try reflexivity.
    exists (config_merge a b). split; [reflexivity|].
    assert (Wf : forall ps c, configs_ok ps -> plugin_data n v ps = Some c -> NoDup (keys c) /\ Forall (fun kv => json_wf (snd kv)) c).
    { intros ps c C E. unfold plugin_data in E. destruct (find _ ps) as [r|] eqn:F; [|discriminate]. injection E as <-.
      apply find_some in F. unfold configs_ok in C. rewrite Forall_forall in C. exact (C r (proj1 F)). }
    destruct (Wf _ _ Cp Ea) as [Na Wa]. destruct (Wf _ _ Cq Eb) as [Nb Wb].
    intro k. rewrite config_merge_get by exact Nb.
    destruct (obj_get k a) as [x|] eqn:Ga; destruct (obj_get k b) as [y|] eqn:Gb; try reflexivity.
    exists (json_deep_merge x y). split; [reflexivity|]. rewrite Forall_forall in Wa, Wb.
    apply deep_merge_merged; [apply (Wa (k, x))|apply (Wb (k, y))]; apply obj_get_in; assumption.
Qed.

(** Merging with a V3 pact keeps the plugins. *)
Theorem C57_plugins_with_v3 : forall p o m, merge (PV4 p) o = Ok m -> (forall q, o <> PV4 q) ->
  exists r, m = PV4 r /\ vp_plugins r = vp_plugins p.
Proof.
  intros p o m H NV. cbn [merge] in H. unfold v4_merge in H.
  destruct (who_eqb _ _); [|discriminate]. destruct (all_some _); [|discriminate]. injection H as <-.
  eexists. split; [reflexivity|]. destruct o as [o|o|o]; try reflexivity. destruct (NV o eq_refl).
Qed.

(** Lists in the configuration of a plugin grow with every write of the same pact: after n
    writes every element is there n times. *)
Definition ex_plugin_pact (l : list json) : pact :=
  PV4 (mkV4P ex_who [] [] [mkPlugin (S_ "csv") (S_ "1") [(S_ "k", JArr l)]]).
Theorem C57_lists_grow : forall l n, exists f,
  written (repeat (ex_plugin_pact l) (S n)) None = Some (PV4 f) /\
  plugin_data (S_ "csv") (S_ "1") (vp_plugins f) = Some [(S_ "k", JArr (concat (repeat l (S n))))].
Proof.
  intros l n.
  assert (R : forall k, written (repeat (ex_plugin_pact l) (S k)) None = Some (ex_plugin_pact (concat (repeat l (S k))))).
  { induction k as [|k IH].
    - cbn. unfold ex_plugin_pact. rewrite app_nil_r. reflexivity.
    - replace (repeat (ex_plugin_pact l) (S (S k))) with (repeat (ex_plugin_pact l) (S k) ++ [ex_plugin_pact l])
        by (rewrite <- repeat_cons; reflexivity).
      unfold written in *. rewrite fold_left_app, IH. reflexivity. }
  exists (mkV4P ex_who [] [] [mkPlugin (S_ "csv") (S_ "1") [(S_ "k", JArr (concat (repeat l (S n))))]]).
  split; [apply R|]. reflexivity.
Qed.

Example C57_example : exists p q,
  plugins_distinct (vp_plugins p) /\ plugins_distinct (vp_plugins q) /\ configs_ok (vp_plugins p) /\ configs_ok (vp_plugins q) /\
  merge (PV4 p) (PV4 q) = Ok (PV4 (mkV4P ex_who [] [] [mkPlugin (S_ "a") (S_ "1") [(S_ "k", JArr [JNull; JBool true]); (S_ "z", JNull)];
                                                       mkPlugin (S_ "a") (S_ "2") []])).
Proof.
  exists (mkV4P ex_who [] [] [mkPlugin (S_ "a") (S_ "1") [(S_ "k", JArr [JNull])]]),
         (mkV4P ex_who [] [] [mkPlugin (S_ "a") (S_ "1") [(S_ "k", JArr [JBool true]); (S_ "z", JNull)]; mkPlugin (S_ "a") (S_ "2") []]).
  split; [repeat constructor; intros []|]. split.
  { constructor; [intros [X|[]]; discriminate X|]. constructor; [intros []|constructor]. }
  split.
  { constructor; [|constructor]. split; [constructor; [intros []|constructor]|].
    constructor; [|constructor]. cbn. tauto. }
  split.
  { constructor; [|constructor; [split; constructor|constructor]]. split.
    - cbn. constructor; [intros [X|[]]; discriminate X|]. constructor; [intros []|constructor].
    - constructor; [cbn; tauto|]. constructor; [cbn; tauto|constructor]. }
  reflexivity.
Qed.
