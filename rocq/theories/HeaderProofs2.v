(** Proofs about structured header values and the JSON form of headers. *)
From Coq Require Import Ascii String List Arith NArith ZArith Lia Bool Sorted Permutation.
From Verif Require Import Base PathExp Json Text TextProofs MatchingRules Matchers JsonCompare Headers SpecQuery QueryProofs SpecHeaders HeaderProofs.
Import ListNotations.
Open Scope N_scope.
Local Opaque show_N.

Section Structured.
Variable w : world.
Notation sp := (is_space w).

Lemma space_59 : sp 59 = false. Proof. reflexivity. Qed.
Lemma space_61 : sp 61 = false. Proof. reflexivity. Qed.
Lemma space_not_in : forall c p, sp c = false -> forallb sp p = true -> ~ In c p.
Proof. intros c p Hc H I. rewrite forallb_forall in H. specialize (H c I). congruence. Qed.

Lemma unpadded_trimmed : forall s, unpadded sp s -> trimmed w s.
Proof.
  intros s [A B]. apply trimmed_iff. destruct s as [|x s]; [exact I|]. split; [apply (A x s eq_refl)|].
  destruct (rev (x :: s)) as [|y r] eqn:E; [exact I|]. apply (B y (rev r)).
  rewrite <- (rev_involutive (x :: s)), E. reflexivity.
Qed.
Lemma unpadded_check : forall s, (match s with [] => true | x :: _ => negb (sp x) && negb (sp (last s 0)) end) = true -> unpadded sp s.
Proof.
  intros s H. split.
  - intros x r ->. apply andb_true_iff in H as [H _]. apply negb_true_iff, H.
  - intros x r E. destruct s as [|y s]; [destruct r; discriminate|]. apply andb_true_iff in H as [_ H].
    rewrite E, last_last in H. apply negb_true_iff, H.
Qed.
Lemma padded_trim : forall s t, unpadded sp s -> padded sp s t -> trim w t = s.
Proof. intros s t U [p [q [-> [Hp Hq]]]]. apply trim_pad; [exact Hp | exact Hq | apply unpadded_trimmed, U]. Qed.
Lemma padded_not_in : forall c s t, sp c = false -> ~ In c s -> padded sp s t -> ~ In c t.
Proof.
  intros c s t Hc N [p [q [-> [Hp Hq]]]]. rewrite !in_app_iff. intros [I|[I|I]];
    [exact (space_not_in c p Hc Hp I) | contradiction | exact (space_not_in c q Hc Hq I)].
Qed.

(** The parts after trimming and removal of the empty ones. *)
Inductive part_of : str * str -> str -> Prop :=
| part_intro : forall n v n1 v1, ~ In 61 n1 -> trim w n1 = n -> trim w v1 = v -> part_of (n, v) (n1 ++ 61 :: v1).
Lemma param_part : forall n v t, ~ In 61 n -> unpadded sp n -> unpadded sp v -> param_text sp (n, v) t ->
  part_of (n, v) (trim w t) /\ nonempty (trim w t) = true.
Proof.
  intros n v t N Un Uv [a [b [Pa [Pb ->]]]]. cbn [fst snd] in *. rewrite trim_around by exact space_61. split.
  - constructor.
    + pose proof (padded_not_in 61 n a space_61 N Pa) as Na. destruct (drop_while_suffix _ sp a) as [p [E _]].
      intro I. apply Na. rewrite E, in_app_iff. right. exact I.
    + rewrite trim_drop_left. apply padded_trim; assumption.
    + rewrite trim_drop_right. apply padded_trim; assumption.
  - destruct (drop_while sp a); reflexivity.
Qed.
Lemma params_parts : forall ps ts, params_text sp ps ts ->
  (forall n v, In (n, v) ps -> ~ In 59 n /\ ~ In 61 n /\ ~ In 59 v /\ unpadded sp n /\ unpadded sp v) ->
  Forall2 part_of ps (filter nonempty (map (trim w) ts)) /\ Forall (fun t => ~ In 59 t) ts.
Proof.
  induction 1 as [|[n v] ps t ts P H IH|ps t ts B H IH]; intro OK; [split; constructor| |].
  - destruct (OK n v (or_introl eq_refl)) as [N1 [N2 [N3 [U1 U2]]]].
    destruct IH as [IH1 IH2]; [intros; apply OK; right; assumption|].
    destruct (param_part n v t N2 U1 U2 P) as [Q Q']. split.
    + cbn [map filter]. rewrite Q'. constructor; assumption.
    + constructor; [|exact IH2]. destruct P as [a [b [Pa [Pb ->]]]]. cbn [fst snd] in *. rewrite in_app_iff.
      intros [I|[I|I]]; [exact (padded_not_in 59 n a space_59 N1 Pa I) | discriminate | exact (padded_not_in 59 v b space_59 N3 Pb I)].
  - destruct IH as [IH1 IH2]; [assumption|]. split.
    + cbn [map filter]. rewrite trim_blank by exact B. exact IH1.
    + constructor; [|exact IH2]. apply space_not_in; [exact space_59 | exact B].
Qed.
Lemma split_written : forall m ts, ~ In 59 m -> Forall (fun t => ~ In 59 t) ts ->
  split_on 59 (m ++ flat_map (fun t => 59 :: t) ts) = m :: ts.
Proof.
  intros m ts Nm F. revert m Nm. induction F as [|t ts Nt F IH]; intros m Nm; cbn [flat_map].
  - rewrite app_nil_r. apply split_on_none, Nm.
  - cbn [app]. rewrite split_on_app by exact Nm. f_equal. apply IH, Nt.
Qed.
Lemma strip_trim : forall s, strip_parts w (trim w s) = strip_parts w s.
Proof. intro s. unfold strip_parts. rewrite split_trim by reflexivity. reflexivity. Qed.
Lemma strip_written : forall h text, structured_ok sp h -> written sp h text -> exists parts,
  strip_parts w text = media h :: parts /\ Forall2 part_of (params h) parts.
Proof.
  intros h text [NE [N59 [U OK]]] [m [ts [Pm [Pts ->]]]].
  destruct (params_parts _ _ Pts OK) as [F N]. exists (filter nonempty (map (trim w) ts)). split; [|exact F].
  unfold strip_parts. rewrite split_written; [|exact (padded_not_in 59 _ m space_59 N59 Pm) | exact N].
  cbn [map filter]. rewrite (padded_trim _ _ U Pm). destruct (media h); [congruence | reflexivity].
Qed.

(** * The parameter map *)
Lemma sm_insert_get : forall A k (v : A) m j, obj_get j (sm_insert k v m) = if str_eqb j k then Some v else obj_get j m.
Proof.
  intros A k v. induction m as [|[k' x] m IH]; intro j; [reflexivity|]. cbn [sm_insert].
  destruct (str_eqb_spec k k') as [<-|N].
  - cbn [obj_get]. destruct (str_eqb j k); reflexivity.
  - cbn [obj_get]. rewrite IH. destruct (str_eqb_spec j k') as [->|N']; [|reflexivity].
    apply not_eq_sym in N. apply str_eqb_neq in N. rewrite N. reflexivity.
Qed.
Lemma sm_insert_keys : forall A k (v : A) m j, In j (keys (sm_insert k v m)) <-> j = k \/ In j (keys m).
Proof.
  intros A k v m j. induction m as [|[k' x] m IH]; cbn; [intuition|].
  destruct (str_eqb_spec k k') as [<-|N]; cbn; [intuition|]. rewrite IH. intuition.
Qed.
Lemma sm_insert_nodup : forall A k (v : A) m, NoDup (keys m) -> NoDup (keys (sm_insert k v m)).
Proof.
  intros A k v. induction m as [|[k' x] m IH]; intro ND; [constructor; [auto|constructor]|].
  inversion ND; subst. cbn [sm_insert]. destruct (str_eqb_spec k k') as [<-|N]; [exact ND|].
  cbn. constructor; [|apply IH; assumption]. intro I. apply sm_insert_keys in I as [->|I]; contradiction.
Qed.
Lemma parameters_get_from : forall ps parts, Forall2 part_of ps parts -> forall m n,
  obj_get n (fold_left (fun m p => match split_once 61 p with
    | Some (k, v) => sm_insert (trim w k) (trim w v) m
    | None => m
    end) parts m) = match param n ps with Some v => Some v | None => obj_get n m end.
Proof.
  induction 1 as [|[n0 v0] t ps parts P F IH]; intros m n; [reflexivity|]. cbn [fold_left param].
  rewrite IH. destruct (param n ps); [reflexivity|]. inversion P as [? ? n1 v1 N E1 E2]; subst.
  rewrite split_once_app by exact N. rewrite sm_insert_get. destruct (str_eqb n (trim w n1)); reflexivity.
Qed.
Lemma parameters_get : forall ps parts n, Forall2 part_of ps parts -> obj_get n (parse_parameters w parts) = param n ps.
Proof. intros ps parts n F. unfold parse_parameters. rewrite (parameters_get_from ps parts F). destruct (param n ps); reflexivity. Qed.
Lemma parameters_nodup : forall parts, NoDup (keys (parse_parameters w parts)).
Proof.
  intro parts. unfold parse_parameters. assert (NoDup (keys (@nil (str * str)))) as H by constructor. revert H.
  generalize (@nil (str * str)). induction parts as [|p parts IH]; intros m H; [exact H|]. cbn [fold_left]. apply IH.
  destruct (split_once 61 p) as [[k v]|]; [apply sm_insert_nodup, H | exact H].
Qed.
Lemma flat_map_nil : forall A B (f : A -> list B) l, flat_map f l = [] <-> forall x, In x l -> f x = [].
Proof.
  induction l as [|x l IH]; cbn; [intuition|]. split.
  - intros E y [<-|I]; apply app_eq_nil in E as [E1 E2]; [exact E1 | apply IH; assumption].
  - intro H. rewrite (H x (or_introl eq_refl)). apply IH. intros; apply H; right; assumption.
Qed.
Lemma ascii_lower_low : forall s, ascii_lower s = map low s.
Proof. reflexivity. Qed.

Theorem parameter_header : forall e a te ta, structured_ok sp e -> structured_ok sp a ->
  written sp e te -> written sp a ta ->
  (match_parameter_header w (trim w te) (trim w ta) = [] <-> structured_match e a).
Proof.
  intros e a te ta Oe Oa We Wa. unfold match_parameter_header. rewrite !strip_trim.
  destruct (strip_written e te Oe We) as [pe [Ee Fe]]. destruct (strip_written a ta Oa Wa) as [pa [Ea Fa]].
  rewrite Ee, Ea. cbn [first_and_rest]. unfold structured_match.
  destruct (str_eqb_spec (media e) (media a)) as [M|M]; [|split; [discriminate | intros [M' _]; contradiction]].
  rewrite flat_map_nil. split.
  - intro H. split; [exact M|]. intros n v P.
    specialize (H (n, v)). rewrite <- (parameters_get _ _ n Fe) in P. apply obj_get_in in P. specialize (H P).
    cbn [fst snd] in H. rewrite (parameters_get _ _ n Fa) in H. destruct (param n (params a)) as [v'|]; [|discriminate].
    exists v'. split; [reflexivity|]. destruct (str_eqb_spec (ascii_lower v) (ascii_lower v')) as [L|L]; [exact L | discriminate].
  - intros [_ H] [n v] I. cbn [fst snd]. apply (obj_get_nodup _ n v _ (parameters_nodup pe)) in I.
    rewrite (parameters_get _ _ n Fe) in I. destruct (H n v I) as [v' [P L]]. rewrite (parameters_get _ _ n Fa), P.
    change (map low v) with (ascii_lower v) in L. change (map low v') with (ascii_lower v') in L. rewrite L, str_eqb_refl. reflexivity.
Qed.
End Structured.

(** * JSON *)
Section Json.
Variable w : world.
Lemma join_comma_split : forall vs, vs <> [] -> Forall (fun v => trimmed w v /\ ~ In 44 v) vs ->
  map (trim w) (split_on 44 (join_with (S_ ", ") vs)) = vs.
Proof.
  assert (forall vs p, forallb (is_space w) p = true -> vs <> [] -> Forall (fun v => trimmed w v /\ ~ In 44 v) vs ->
    map (trim w) (split_on 44 (p ++ join_with (S_ ", ") vs)) = vs) as G.
  { induction vs as [|v vs IH]; intros p Hp NE F; [congruence|]. inversion F as [|? ? [Tv Nv] F']; subst.
    assert (~ In 44 (p ++ v)) as N by (rewrite in_app_iff; intros [I|I]; [exact (space_not_in w 44 p eq_refl Hp I) | contradiction]).
    destruct vs as [|v' vs].
    - cbn [join_with]. rewrite split_on_none by exact N. cbn [map]. rewrite trim_app_left by exact Hp. rewrite Tv. reflexivity.
    - set (r := join_with (S_ ", ") (v' :: vs)) in *.
      assert (p ++ join_with (S_ ", ") (v :: v' :: vs) = (p ++ v) ++ 44 :: ([32] ++ r)) as ->
        by (rewrite <- app_assoc; reflexivity).
      rewrite split_on_app by exact N. cbn [map]. rewrite trim_app_left by exact Hp. rewrite Tv. f_equal.
      apply (IH [32]); [reflexivity | discriminate | assumption]. }
  intros vs NE F. apply (G vs []); [reflexivity | exact NE | exact F].
Qed.
Lemma obj_get_mapk : forall A B (f : str -> A -> B) (m : list (str * A)) k,
  obj_get k (map (fun kv => (fst kv, f (fst kv) (snd kv))) m) = match obj_get k m with Some v => Some (f k v) | None => None end.
Proof.
  induction m as [|[k' v] m IH]; intro k; [reflexivity|]. cbn. rewrite IH. destruct (str_eqb_spec k k') as [<-|N]; reflexivity.
Qed.
End Json.
