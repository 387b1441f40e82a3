(** Lemmas on the string operations of Text.v. *)
From Coq Require Import Ascii String List Arith NArith ZArith Lia Bool ZifyBool ZifyN ZifyNat.
From Verif Require Import Base Json Text.
Import ListNotations.
Open Scope N_scope.
Ltac Zify.zify_post_hook ::= Z.div_mod_to_equations.

(** * Trimming *)
Lemma drop_while_all : forall A (f : A -> bool) p s, forallb f p = true -> drop_while f (p ++ s) = drop_while f s.
Proof.
  induction p as [|x p IH]; cbn; intros s H; [reflexivity|]. apply andb_true_iff in H as [-> H]. apply IH, H.
Qed.
Lemma drop_while_id : forall A (f : A -> bool) x s, f x = false -> drop_while f (x :: s) = x :: s.
Proof. intros A f x s H. cbn. rewrite H. reflexivity. Qed.
Lemma drop_while_nil : forall A (f : A -> bool) p, forallb f p = true -> drop_while f p = [].
Proof. intros A f p H. rewrite <- (app_nil_r p), drop_while_all by exact H. reflexivity. Qed.
Lemma drop_while_suffix : forall A (f : A -> bool) s, exists p, s = p ++ drop_while f s /\ forallb f p = true.
Proof.
  induction s as [|x s [p [E H]]]; [exists []; auto|]. cbn. destruct (f x) eqn:F.
  - exists (x :: p). cbn. rewrite F, <- E. auto.
  - exists []. auto.
Qed.
Lemma drop_while_head : forall A (f : A -> bool) s, match drop_while f s with x :: _ => f x = false | [] => True end.
Proof. induction s as [|x s IH]; cbn; [exact I|]. destruct (f x) eqn:F; [exact IH | exact F]. Qed.

Lemma forallb_rev : forall A (f : A -> bool) l, forallb f (rev l) = forallb f l.
Proof.
  induction l as [|x l IH]; [reflexivity|]. cbn [rev forallb]. rewrite forallb_app, IH. cbn. rewrite andb_true_r. apply andb_comm.
Qed.

(** Text without white space at either end. *)
Definition trimmed (w : world) (s : str) : Prop := trim w s = s.

Section Trim.
Variable w : world.
Notation sp := (is_space w).

(** The ends of a text. *)
Definition no_space_ends (s : str) : Prop :=
  match s with
  | [] => True
  | x :: _ => sp x = false /\ match rev s with y :: _ => sp y = false | [] => True end
  end.
Lemma trim_padded : forall p s q, forallb sp p = true -> forallb sp q = true -> no_space_ends s -> trim w (p ++ s ++ q) = s.
Proof.
  intros p s q Hp Hq E. unfold trim. rewrite drop_while_all by exact Hp.
  destruct s as [|x s'].
  - cbn [app]. rewrite (drop_while_nil _ _ q) by exact Hq. reflexivity.
  - destruct E as [Ex Ey]. cbn [app]. rewrite drop_while_id by exact Ex.
    rewrite app_comm_cons, rev_app_distr, drop_while_all by (rewrite forallb_rev; exact Hq).
    destruct (rev (x :: s')) as [|y r] eqn:R; [apply (f_equal (@rev N)) in R; rewrite rev_involutive in R; discriminate|].
    rewrite drop_while_id by exact Ey. rewrite <- R, rev_involutive. reflexivity.
Qed.
Lemma trim_ends : forall s, no_space_ends (trim w s).
Proof.
  intro s. unfold trim. set (a := drop_while sp s). pose proof (drop_while_head _ sp s) as Ha. fold a in Ha.
  set (b := drop_while sp (rev a)). pose proof (drop_while_head _ sp (rev a)) as Hb. fold b in Hb.
  destruct (drop_while_suffix _ sp (rev a)) as [p [E Hp]]. fold b in E.
  assert (a = rev b ++ rev p) as Ea by (rewrite <- rev_app_distr, <- E, rev_involutive; reflexivity).
  unfold no_space_ends. destruct (rev b) as [|x r] eqn:R; [exact I|]. rewrite <- R, rev_involutive.
  split; [rewrite Ea in Ha; exact Ha | destruct b; [exact I | exact Hb]].
Qed.
Lemma trimmed_iff : forall s, trimmed w s <-> no_space_ends s.
Proof.
  intro s. split; intro H.
  - unfold trimmed in H. rewrite <- H. apply trim_ends.
  - pose proof (trim_padded [] s [] eq_refl eq_refl H) as E. cbn [app] in E. rewrite app_nil_r in E. exact E.
Qed.
Lemma trim_trim : forall s, trim w (trim w s) = trim w s.
Proof. intro s. apply trimmed_iff, trim_ends. Qed.
Lemma trim_pad : forall p s q, forallb sp p = true -> forallb sp q = true -> trimmed w s -> trim w (p ++ s ++ q) = s.
Proof. intros p s q Hp Hq T. apply trim_padded; try assumption. apply trimmed_iff, T. Qed.
(** Every text is its trimmed form with white space around it. *)
Lemma trim_split : forall s, exists p q, s = p ++ trim w s ++ q /\ forallb sp p = true /\ forallb sp q = true.
Proof.
  intro s. unfold trim. destruct (drop_while_suffix _ sp s) as [p [E Hp]]. set (a := drop_while sp s) in *.
  destruct (drop_while_suffix _ sp (rev a)) as [q [F Hq]]. set (b := drop_while sp (rev a)) in *.
  exists p, (rev q). rewrite forallb_rev. repeat split; try assumption.
  rewrite <- rev_app_distr, <- F, rev_involutive. exact E.
Qed.
End Trim.

(** * Splitting and joining *)
Lemma split_on_none : forall c s, ~ In c s -> split_on c s = [s].
Proof.
  induction s as [|x s IH]; intro H; [reflexivity|]. cbn. destruct (N.eqb_spec x c) as [->|N].
  - exfalso. apply H. left. reflexivity.
  - rewrite IH by (intro; apply H; right; assumption). reflexivity.
Qed.
Lemma split_on_app : forall c a s, ~ In c a -> split_on c (a ++ c :: s) = a :: split_on c s.
Proof.
  induction a as [|x a IH]; intros s H; cbn; [rewrite N.eqb_refl; reflexivity|].
  destruct (N.eqb_spec x c) as [->|N]; [exfalso; apply H; left; reflexivity|].
  rewrite IH by (intro; apply H; right; assumption). reflexivity.
Qed.
Lemma split_on_nonempty : forall c s, split_on c s <> [].
Proof. induction s as [|x s IH]; cbn; [discriminate|]. destruct (x =? c); [discriminate|]. destruct (split_on c s); congruence. Qed.
Lemma split_on_parts : forall c s p, In p (split_on c s) -> ~ In c p.
Proof.
  induction s as [|x s IH]; cbn; intros p H.
  - destruct H as [<-|[]]. auto.
  - destruct (N.eqb_spec x c) as [->|N].
    + destruct H as [<-|H]; [auto | apply IH, H].
    + destruct (split_on c s) as [|q qs] eqn:E; [exfalso; apply (split_on_nonempty c s E)|].
      destruct H as [<-|H]; [|apply IH; right; exact H].
      intros [->|I]; [congruence|]. apply (IH q); [left; reflexivity | exact I].
Qed.
Lemma join_split : forall c s, join_with [c] (split_on c s) = s.
Proof.
  induction s as [|x s IH]; [reflexivity|]. cbn [split_on]. destruct (N.eqb_spec x c) as [->|N].
  - pose proof (split_on_nonempty c s). destruct (split_on c s) as [|p ps] eqn:E; [congruence|].
    cbn [join_with]. cbn [app]. f_equal. exact IH.
  - pose proof (split_on_nonempty c s). destruct (split_on c s) as [|p ps] eqn:E; [congruence|].
    destruct ps; [cbn [join_with] in *; rewrite IH; reflexivity|].
    change (join_with [c] ((x :: p) :: s0 :: ps)) with (x :: join_with [c] (p :: s0 :: ps)). rewrite IH. reflexivity.
Qed.
Lemma split_join : forall c l, l <> [] -> Forall (fun p => ~ In c p) l -> split_on c (join_with [c] l) = l.
Proof.
  induction l as [|x l IH]; intros NE H; [congruence|]. inversion H; subst.
  destruct l as [|y l]; [apply split_on_none; assumption|].
  change (join_with [c] (x :: y :: l)) with (x ++ c :: join_with [c] (y :: l)).
  rewrite split_on_app by assumption. f_equal. apply IH; [discriminate | assumption].
Qed.

Lemma split_once_none : forall c s, split_once c s = None <-> ~ In c s.
Proof.
  induction s as [|x s IH]; cbn; [tauto|]. destruct (N.eqb_spec x c) as [->|N].
  - split; [discriminate|]. intro H. exfalso. apply H. left. reflexivity.
  - destruct (split_once c s) as [[a b]|]; [split; [discriminate|] | split; [|reflexivity]].
    + intro H. exfalso. assert (~ ~ In c s) as Q by (rewrite <- IH; discriminate). apply Q. intro I. apply H. right. exact I.
    + intros _ [->|I]; [congruence|]. apply IH; auto.
Qed.
Lemma split_once_app : forall c a b, ~ In c a -> split_once c (a ++ c :: b) = Some (a, b).
Proof.
  induction a as [|x a IH]; intros b H; cbn; [rewrite N.eqb_refl; reflexivity|].
  destruct (N.eqb_spec x c) as [->|N]; [exfalso; apply H; left; reflexivity|].
  rewrite IH by (intro; apply H; right; assumption). reflexivity.
Qed.
Lemma split_once_some : forall c s a b, split_once c s = Some (a, b) -> s = a ++ c :: b /\ ~ In c a.
Proof.
  induction s as [|x s IH]; cbn; intros a b H; [discriminate|].
  destruct (N.eqb_spec x c) as [->|N]; [injection H as <- <-; auto|].
  destruct (split_once c s) as [[a' b']|]; [|discriminate]. injection H as <- <-.
  destruct (IH a' b' eq_refl) as [-> I]. split; [reflexivity|]. intros [->|J]; [congruence | auto].
Qed.

(** * UTF-8 *)
Lemma scalar_bound : forall c, scalar c = true -> c < 1114112.
Proof. unfold scalar. intros. lia. Qed.
Lemma utf8_take_char : forall c bs, scalar c = true -> utf8_take (utf8_char c ++ bs) = Some (c, bs).
Proof.
  intros c bs S. pose proof (scalar_bound c S) as B. unfold utf8_char.
  destruct (N.ltb_spec c 128) as [H|H]; [cbn [app utf8_take]; destruct (N.ltb_spec c 128); [reflexivity | lia]|].
  destruct (N.ltb_spec c 2048) as [H1|H1].
  { cbn [app utf8_take]. unfold cont.
    replace (192 + c / 64 <? 128) with false by lia.
    replace ((194 <=? 192 + c / 64) && (192 + c / 64 <? 224)) with true by lia.
    replace ((128 <=? 128 + c mod 64) && (128 + c mod 64 <? 192)) with true by lia.
    do 2 f_equal. lia. }
  destruct (N.ltb_spec c 65536) as [H2|H2].
  { cbn [app utf8_take].
    assert ((224 + c / 4096 - 224) * 4096 + (128 + (c / 64) mod 64 - 128) * 64 + (128 + c mod 64 - 128) = c) as ->.
    { replace (224 + c / 4096 - 224) with (c / 4096) by lia. replace (128 + (c/64) mod 64 - 128) with ((c/64) mod 64) by lia.
      replace (128 + c mod 64 - 128) with (c mod 64) by lia.
      pose proof (N.div_mod (c/64) 64 ltac:(lia)) as E1. pose proof (N.div_mod c 64 ltac:(lia)) as E2.
      rewrite N.div_div in E1 by lia. change (64 * 64) with 4096 in E1. lia. }
    unfold cont.
    replace (224 + c / 4096 <? 128) with false by lia.
    replace ((194 <=? 224 + c / 4096) && (224 + c / 4096 <? 224)) with false by lia.
    replace ((224 <=? 224 + c / 4096) && (224 + c / 4096 <? 240)) with true by lia.
    replace ((128 <=? 128 + (c / 64) mod 64) && (128 + (c / 64) mod 64 <? 192)) with true by lia.
    replace ((128 <=? 128 + c mod 64) && (128 + c mod 64 <? 192)) with true by lia.
    replace (2048 <=? c) with true by lia. rewrite S. reflexivity. }
  cbn [app utf8_take].
  assert ((240 + c / 262144 - 240) * 262144 + (128 + (c / 4096) mod 64 - 128) * 4096 + (128 + (c / 64) mod 64 - 128) * 64 + (128 + c mod 64 - 128) = c) as ->.
  { replace (240 + c / 262144 - 240) with (c / 262144) by lia. replace (128 + (c/4096) mod 64 - 128) with ((c/4096) mod 64) by lia.
    replace (128 + (c/64) mod 64 - 128) with ((c/64) mod 64) by lia.
    replace (128 + c mod 64 - 128) with (c mod 64) by lia.
    pose proof (N.div_mod (c/4096) 64 ltac:(lia)) as E0.
    pose proof (N.div_mod (c/64) 64 ltac:(lia)) as E1. pose proof (N.div_mod c 64 ltac:(lia)) as E2.
    rewrite N.div_div in E1 by lia. change (64 * 64) with 4096 in E1.
    rewrite N.div_div in E0 by lia. change (4096 * 64) with 262144 in E0. lia. }
  unfold cont.
  replace (240 + c / 262144 <? 128) with false by lia.
  replace ((194 <=? 240 + c / 262144) && (240 + c / 262144 <? 224)) with false by lia.
  replace ((224 <=? 240 + c / 262144) && (240 + c / 262144 <? 240)) with false by lia.
  replace ((240 <=? 240 + c / 262144) && (240 + c / 262144 <? 245)) with true by lia.
  replace ((128 <=? 128 + (c / 4096) mod 64) && (128 + (c / 4096) mod 64 <? 192)) with true by lia.
  replace ((128 <=? 128 + (c / 64) mod 64) && (128 + (c / 64) mod 64 <? 192)) with true by lia.
  replace ((128 <=? 128 + c mod 64) && (128 + c mod 64 <? 192)) with true by lia.
  replace (65536 <=? c) with true by lia. replace (c <? 1114112) with true by lia. reflexivity.
Qed.

Lemma utf8_char_nonempty : forall c, exists b r, utf8_char c = b :: r.
Proof. intro c. unfold utf8_char. destruct (c <? 128); [|destruct (c <? 2048); [|destruct (c <? 65536)]]; eauto. Qed.

Lemma from_utf8_fuel_ok : forall s f, forallb scalar s = true -> (length (utf8 s) <= f)%nat -> from_utf8_fuel f (utf8 s) = Some s.
Proof.
  induction s as [|c s IH]; intros f SS L; [destruct f; reflexivity|].
  cbn [forallb] in SS. apply andb_true_iff in SS as [Sc SS]. change (utf8 (c :: s)) with (utf8_char c ++ utf8 s) in *.
  destruct (utf8_char_nonempty c) as (b & r & E). rewrite app_length, E in L. cbn [length] in L.
  destruct f as [|f]; [lia|].
  assert (from_utf8_fuel (S f) (utf8_char c ++ utf8 s) =
    match utf8_take (utf8_char c ++ utf8 s) with
    | Some (c, r) => match from_utf8_fuel f r with Some s => Some (c :: s) | None => None end
    | None => None end) as -> by (rewrite E; reflexivity).
  rewrite utf8_take_char by exact Sc. rewrite IH by (exact SS || lia). reflexivity.
Qed.
Theorem from_utf8_utf8 : forall s, forallb scalar s = true -> from_utf8 (utf8 s) = Some s.
Proof. intros s S. apply from_utf8_fuel_ok; [exact S | reflexivity]. Qed.

(** The other direction: what is accepted is the encoding of the result. *)
Lemma utf8_take_inv : forall bs c r, utf8_take bs = Some (c, r) -> bs = utf8_char c ++ r /\ scalar c = true.
Proof.
  intros bs c r H. destruct bs as [|b bs]; [discriminate|]. cbn [utf8_take] in H.
  destruct (N.ltb_spec b 128) as [B|B].
  { injection H as <- <-. unfold utf8_char. replace (b <? 128) with true by lia. split; [reflexivity|]. unfold scalar. lia. }
  destruct ((194 <=? b) && (b <? 224)) eqn:C2.
  { destruct bs as [|b1 bs]; [discriminate|]. destruct (cont b1) eqn:K; [|discriminate]. injection H as <- <-. unfold cont in K.
    set (c := (b - 192) * 64 + (b1 - 128)).
    assert (c / 64 = b - 192 /\ c mod 64 = b1 - 128) as [D M] by (subst c; lia).
    unfold utf8_char. replace (c <? 128) with false by lia. replace (c <? 2048) with true by lia.
    rewrite D, M. split; [|unfold scalar; lia]. cbn [app]. replace (192 + (b - 192)) with b by lia. replace (128 + (b1 - 128)) with b1 by lia. reflexivity. }
  destruct ((224 <=? b) && (b <? 240)) eqn:C3.
  { destruct bs as [|b1 [|b2 bs]]; try discriminate.
    destruct (cont b1) eqn:K1; [|discriminate]. destruct (cont b2) eqn:K2; [|discriminate]. cbn [andb] in H.
    set (c0 := (b - 224) * 4096 + (b1 - 128) * 64 + (b2 - 128)) in *.
    destruct (2048 <=? c0) eqn:L; [|discriminate]. destruct (scalar c0) eqn:S; [|discriminate]. cbn [andb] in H. injection H as <- <-.
    unfold cont in K1, K2.
    assert (c0 / 4096 = b - 224 /\ (c0 / 64) mod 64 = b1 - 128 /\ c0 mod 64 = b2 - 128) as (D & M1 & M2).
    { assert (c0 / 64 = (b - 224) * 64 + (b1 - 128) /\ c0 mod 64 = b2 - 128) as [X Y] by (subst c0; lia).
      rewrite X. repeat split; [subst c0|..]; lia. }
    unfold utf8_char. replace (c0 <? 128) with false by lia. replace (c0 <? 2048) with false by lia.
    replace (c0 <? 65536) with true by lia. rewrite D, M1, M2. split; [|exact S]. cbn [app]. replace (224 + (b - 224)) with b by lia. replace (128 + (b1 - 128)) with b1 by lia. replace (128 + (b2 - 128)) with b2 by lia. reflexivity. }
  destruct ((240 <=? b) && (b <? 245)) eqn:C4; [|discriminate].
  destruct bs as [|b1 [|b2 [|b3 bs]]]; try discriminate.
  destruct (cont b1) eqn:K1; [|discriminate]. destruct (cont b2) eqn:K2; [|discriminate]. destruct (cont b3) eqn:K3; [|discriminate].
  cbn [andb] in H. set (c0 := (b - 240) * 262144 + (b1 - 128) * 4096 + (b2 - 128) * 64 + (b3 - 128)) in *.
  destruct (65536 <=? c0) eqn:L; [|discriminate]. destruct (c0 <? 1114112) eqn:U; [|discriminate]. cbn [andb] in H. injection H as <- <-.
  unfold cont in K1, K2, K3.
  assert (c0 / 262144 = b - 240 /\ (c0 / 4096) mod 64 = b1 - 128 /\ (c0 / 64) mod 64 = b2 - 128 /\ c0 mod 64 = b3 - 128) as (D & M1 & M2 & M3).
  { assert (c0 / 64 = (b - 240) * 4096 + (b1 - 128) * 64 + (b2 - 128) /\ c0 mod 64 = b3 - 128) as [X Y] by (subst c0; lia).
    assert (c0 / 4096 = (b - 240) * 64 + (b1 - 128)) as Z by (subst c0; lia).
    rewrite X, Z. repeat split; [subst c0|..]; lia. }
  unfold utf8_char. replace (c0 <? 128) with false by lia. replace (c0 <? 2048) with false by lia.
  replace (c0 <? 65536) with false by lia. rewrite D, M1, M2, M3. split; [|unfold scalar; lia].
  cbn [app]. replace (240 + (b - 240)) with b by lia. replace (128 + (b1 - 128)) with b1 by lia. replace (128 + (b2 - 128)) with b2 by lia. replace (128 + (b3 - 128)) with b3 by lia. reflexivity.
Qed.
Lemma from_utf8_fuel_inv : forall f bs s, from_utf8_fuel f bs = Some s -> bs = utf8 s /\ forallb scalar s = true.
Proof.
  induction f as [|f IH]; intros [|b bs] s H; cbn [from_utf8_fuel] in H; try discriminate;
    try (injection H as <-; split; reflexivity).
  destruct (utf8_take (b :: bs)) as [[c r]|] eqn:T; [|discriminate].
  destruct (from_utf8_fuel f r) as [s'|] eqn:F; [|discriminate]. injection H as <-.
  apply utf8_take_inv in T as [-> Sc]. apply IH in F as [-> S]. cbn [forallb utf8 flat_map]. rewrite Sc, S. split; reflexivity.
Qed.
Theorem from_utf8_inv : forall bs s, from_utf8 bs = Some s -> bs = utf8 s /\ forallb scalar s = true.
Proof. intros bs s. apply from_utf8_fuel_inv. Qed.
Theorem utf8_inj : forall a b, forallb scalar a = true -> forallb scalar b = true -> utf8 a = utf8 b -> a = b.
Proof.
  intros a b Sa Sb E. apply from_utf8_utf8 in Sa, Sb. rewrite E in Sa. congruence.
Qed.
Lemma utf8_app : forall a b, utf8 (a ++ b) = utf8 a ++ utf8 b.
Proof. intros a b. apply flat_map_app. Qed.
Lemma utf8_ascii : forall s, forallb (fun c => c <? 128) s = true -> utf8 s = s.
Proof.
  induction s as [|c s IH]; intro H; [reflexivity|]. cbn [forallb] in H. apply andb_true_iff in H as [Hc H].
  cbn [utf8 flat_map]. unfold utf8_char at 1. rewrite Hc. cbn [app]. f_equal. apply IH, H.
Qed.
Lemma scalar_ascii : forall s, forallb (fun c => c <? 128) s = true -> forallb scalar s = true.
Proof.
  intros s H. rewrite forallb_forall in *. intros x I. specialize (H x I). unfold scalar. lia.
Qed.

(** * More on trimming *)
Section Trim2.
Variable w : world.
Notation sp := (is_space w).
Lemma trim_app_left : forall p s, forallb sp p = true -> trim w (p ++ s) = trim w s.
Proof. intros p s H. unfold trim. rewrite drop_while_all by exact H. reflexivity. Qed.
Lemma trim_app_right : forall s q, forallb sp q = true -> trim w (s ++ q) = trim w s.
Proof.
  intros s q H. destruct (trim_split w s) as [p0 [q0 [E [Hp Hq]]]]. rewrite E at 1.
  replace ((p0 ++ trim w s ++ q0) ++ q) with (p0 ++ trim w s ++ (q0 ++ q)) by (rewrite <- !app_assoc; reflexivity).
  apply trim_pad; [exact Hp | rewrite forallb_app, Hq, H; reflexivity | apply trim_trim].
Qed.
Lemma trim_blank : forall q, forallb sp q = true -> trim w q = [].
Proof. intros q H. rewrite <- (app_nil_l q). rewrite trim_app_right by exact H. reflexivity. Qed.
Lemma drop_while_stop : forall A (f : A -> bool) a x b, f x = false ->
  drop_while f (a ++ x :: b) = drop_while f a ++ x :: b.
Proof.
  induction a as [|y a IH]; intros x b H; cbn; [rewrite H; reflexivity|]. destruct (f y); [apply IH, H | reflexivity].
Qed.
(** Around a character that is not white space the two ends are trimmed separately. *)
Lemma trim_around : forall a x b, sp x = false ->
  trim w (a ++ x :: b) = drop_while sp a ++ x :: rev (drop_while sp (rev b)).
Proof.
  intros a x b H. unfold trim. rewrite drop_while_stop by exact H. rewrite rev_app_distr. cbn [rev]. rewrite <- app_assoc. cbn [app].
  rewrite drop_while_stop by exact H. rewrite rev_app_distr. cbn [rev]. rewrite rev_involutive, <- app_assoc. reflexivity.
Qed.
Lemma trim_drop_left : forall a, trim w (drop_while sp a) = trim w a.
Proof. intro a. destruct (drop_while_suffix _ sp a) as [p [E H]]. rewrite E at 2. rewrite trim_app_left by exact H. reflexivity. Qed.
Lemma trim_drop_right : forall b, trim w (rev (drop_while sp (rev b))) = trim w b.
Proof.
  intro b. destruct (drop_while_suffix _ sp (rev b)) as [p [E H]].
  assert (b = rev (drop_while sp (rev b)) ++ rev p) as F.
  { rewrite <- rev_app_distr, <- E, rev_involutive. reflexivity. }
  rewrite F at 2. rewrite trim_app_right by (rewrite forallb_rev; exact H). reflexivity.
Qed.

(** Splitting and trimming the parts ignores white space around the whole text. *)
Lemma split_on_snoc : forall c s x, x <> c ->
  split_on c (s ++ [x]) = removelast (split_on c s) ++ [last (split_on c s) [] ++ [x]].
Proof.
  induction s as [|y s IH]; intros x N.
  - cbn. destruct (N.eqb_spec x c); [contradiction | reflexivity].
  - cbn [app split_on]. rewrite IH by exact N. pose proof (split_on_nonempty c s) as NE.
    destruct (y =? c).
    + destruct (split_on c s) as [|p ps]; [congruence|]. reflexivity.
    + destruct (split_on c s) as [|p [|p' ps]]; [congruence | reflexivity | reflexivity].
Qed.
Lemma split_trim_left : forall c p s, sp c = false -> forallb sp p = true ->
  map (trim w) (split_on c (p ++ s)) = map (trim w) (split_on c s).
Proof.
  intros c. induction p as [|x p IH]; intros s Hc H; [reflexivity|]. cbn [forallb] in H. apply andb_true_iff in H as [Hx H].
  cbn [app split_on]. destruct (N.eqb_spec x c); [congruence|]. rewrite <- (IH s Hc H).
  pose proof (split_on_nonempty c (p ++ s)). destruct (split_on c (p ++ s)) as [|q qs]; [congruence|].
  cbn [map]. f_equal. apply (trim_app_left [x]). cbn. rewrite Hx. reflexivity.
Qed.
Lemma split_trim_right : forall c q s, sp c = false -> forallb sp q = true ->
  map (trim w) (split_on c (s ++ q)) = map (trim w) (split_on c s).
Proof.
  intros c q. induction q as [|x q IH] using rev_ind; intros s Hc H; [rewrite app_nil_r; reflexivity|].
  rewrite forallb_app in H. apply andb_true_iff in H as [H Hx]. rewrite app_assoc, split_on_snoc.
  - rewrite <- (IH s Hc H). pose proof (split_on_nonempty c (s ++ q)) as NE.
    rewrite (app_removelast_last [] NE) at 3. rewrite !map_app. f_equal. cbn [map]. f_equal. apply trim_app_right. exact Hx.
  - intros ->. cbn in Hx. rewrite Hc in Hx. discriminate.
Qed.
Lemma split_trim : forall c s, sp c = false -> map (trim w) (split_on c (trim w s)) = map (trim w) (split_on c s).
Proof.
  intros c s Hc. destruct (trim_split w s) as [p [q [E [Hp Hq]]]]. rewrite E at 2.
  rewrite split_trim_left, split_trim_right by assumption. reflexivity.
Qed.
End Trim2.
