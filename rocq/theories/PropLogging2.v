(** C124: histories of the logger. *)
From Coq Require Import Ascii String List Arith NArith ZArith Lia Bool.
From Verif Require Import Base PathExp Json Text TextProofs SpecCliArgs Logging SpecLogging PropLogging.
From Verif Require PropCliArgs PropPattern3.
Import ListNotations.
Open Scope N_scope.

(** ** Records *)
Lemma target_eqb_iff : forall a b, target_eqb a b = true <-> a = b.
Proof.
  intros [| |p|p] [| |q|q]; cbn; try (split; [discriminate|discriminate]); try (split; reflexivity); rewrite str_eqb_eq; split; congruence.
Qed.
Lemma target_eqb_false : forall a b, target_eqb a b = false <-> a <> b.
Proof. intros a b. rewrite <- not_true_iff_false, target_eqb_iff. reflexivity. Qed.
Lemma writes_iff : forall k r x, writes_to k r x <-> x = target_of k (r_id r).
Proof.
  intros [| |p|] r x; cbn; try reflexivity. destruct (r_id r) as [i|].
  - split; [intros [(id & E & ->)|[E _]]; congruence|intros ->; left; eauto].
  - split; [intros [(id & E & ->)|[_ E]]; congruence|intros ->; right; auto].
Qed.
Lemma copied_nothing : forall x r l, (forall k level, In (k, level) l -> ~ r_level r <= level) -> copied x r l [].
Proof.
  intros x r. induction l as [|[k level] l IH]; intro H; [constructor|]. apply cp_no; [intros [_ L]; apply (H k level); [now left|exact L]|]. apply IH. intros k' l' I. apply (H k' l'). now right.
Qed.
Lemma fold_copies : forall r l o x, exists b, copied x r l b /\
  fold_left (fun o kl => if r_level r <=? snd kl then append o (target_of (fst kl) (r_id r)) (r_text r) else o) l o x = o x ++ b.
Proof.
  intro r. induction l as [|[k level] l IH]; intros o x; [exists []; split; [constructor|cbn; now rewrite app_nil_r]|]. cbn [fold_left fst snd].
  match goal with |- exists b, _ /\ fold_left ?f l ?o' x = _ => destruct (IH o' x) as (b & C & E) end.
  destruct (N.leb_spec (r_level r) level).
  - destruct (target_eqb x (target_of k (r_id r))) eqn:T.
    + exists (r_text r ++ b). split; [apply cp_yes; [apply writes_iff; now apply target_eqb_iff|assumption|exact C]|]. rewrite E. unfold append. rewrite T. now rewrite app_assoc.
    + exists b. split; [apply cp_no; [|exact C]|].
      * intros [W _]. apply writes_iff in W. apply target_eqb_false in T. congruence.
      * rewrite E. unfold append. now rewrite T.
  - exists b. split; [apply cp_no; [|exact C]|exact E]. intros [_ L]. lia.
Qed.
Lemma max_from : forall l m, m <= fold_left (fun m kl => N.max m (snd kl)) l m /\ forall (k : sink) level, In (k, level) l -> level <= fold_left (fun m kl => N.max m (snd kl)) l m.
Proof.
  induction l as [|[k0 l0] l IH]; intro m; cbn [fold_left snd].
  - split; [lia|intros ? ? []].
  - destruct (IH (N.max m l0)) as [A B]. split; [lia|]. intros k level [E|I]; [injection E as -> ->; lia|now apply (B k level)].
Qed.
(** The subscribers with sinks. *)
Definition sinks_are (a : subscriber) (l : list (sink * N)) : Prop := a = Writers l \/ exists m, a = Plain m /\ l = [(KOut, m)].

Section Proofs.
Variable w : world.
Variable can_open : nat -> str -> bool.
Variable render : nat -> message -> list N.
Variable passes : str -> record -> bool.
Notation deliver := (deliver passes).
Notation deliver_all := (deliver_all passes).
Notation step := (step w can_open render passes).
Notation runs := (runs w can_open render passes).
Lemma deliver_same : forall s r, active (deliver s r) = active s /\ pending (deliver s r) = pending s /\ clock (deliver s r) = clock s.
Proof. intros s r. unfold Logging.deliver. destruct (active s) as [[l|m|d]|] eqn:A; [destruct (r_level r <=? max_level l)|destruct (r_level r <=? m)|destruct (passes d r)|]; cbn; auto. Qed.
Lemma deliver_all_same : forall rs s, active (deliver_all s rs) = active s /\ pending (deliver_all s rs) = pending s /\ clock (deliver_all s rs) = clock s.
Proof.
  induction rs as [|r rs IH]; intro s; [cbn; auto|]. change (deliver_all s (r :: rs)) with (deliver_all (deliver s r) rs).
  destruct (IH (deliver s r)) as (A & B & C). destruct (deliver_same s r) as (A' & B' & C'). now rewrite A, B, C, A', B', C'.
Qed.
Lemma deliver_none : forall rs s, active s = None -> out (deliver_all s rs) = out s.
Proof.
  induction rs as [|r rs IH]; intros s A; [reflexivity|]. change (deliver_all s (r :: rs)) with (deliver_all (deliver s r) rs).
  assert (E : deliver s r = s) by (unfold Logging.deliver; now rewrite A). rewrite E. now apply IH.
Qed.
Lemma deliver_copies : forall s a l r x, active s = Some a -> sinks_are a l -> exists b, copied x r l b /\ out (deliver s r) x = out s x ++ b.
Proof.
  intros s a l r x A [->|(m & -> & ->)]; unfold Logging.deliver; rewrite A.
  - destruct (N.leb_spec (r_level r) (max_level l)) as [L|L].
    + cbn. apply fold_copies.
    + exists []. split; [|now rewrite app_nil_r]. apply copied_nothing. intros k level I. unfold max_level in L. destruct (max_from l 0) as [_ B]. specialize (B k level I). lia.
  - destruct (N.leb_spec (r_level r) m) as [L|L]; cbn [with_out out].
    + unfold append. destruct (target_eqb x TOut) eqn:T.
      * exists (r_text r ++ []). split; [|now rewrite app_nil_r]. apply cp_yes; [now apply target_eqb_iff|exact L|constructor].
      * exists []. split; [|now rewrite app_nil_r]. apply cp_no; [|constructor]. intros [W _]. cbn in W. apply target_eqb_false in T. congruence.
    + exists []. split; [|now rewrite app_nil_r]. apply cp_no; [|constructor]. intros [_ W]. lia.
Qed.
Lemma deliver_writes : forall rs s a l x, active s = Some a -> sinks_are a l -> exists b, written x l rs b /\ out (deliver_all s rs) x = out s x ++ b.
Proof.
  induction rs as [|r rs IH]; intros s a l x A SK; [exists []; split; [constructor|cbn; now rewrite app_nil_r]|].
  change (deliver_all s (r :: rs)) with (deliver_all (deliver s r) rs). destruct (deliver_copies s a l r x A SK) as (b & C & E).
  destruct (IH (deliver s r) a l x) as (b' & W & E'); [now rewrite (proj1 (deliver_same s r))|exact SK|].
  exists (b ++ b'). split; [now constructor|]. now rewrite E', E, app_assoc.
Qed.

(** ** A step *)
Lemma ticks : forall n s, active (Nat.iter n tick s) = active s /\ pending (Nat.iter n tick s) = pending s /\ out (Nat.iter n tick s) = out s.
Proof. induction n as [|n IH]; intro s; [cbn; auto|]. cbn. apply IH. Qed.
Lemma installed : forall s a, pending (install s a) = pending s /\ out (install s a) = out s /\ active (install s a) = match active s with Some b => Some b | None => Some a end.
Proof. intros s a. unfold install. destruct (active s) eqn:A; cbn; auto. Qed.
Lemma attach_same : forall s t spec level s' z, attach_sink w can_open s t spec level = (s', z) -> active s' = active s /\ out s' = out s.
Proof.
  intros s t spec level s' z. unfold attach_sink. destruct (from_utf8 spec) as [sp|]; [|intro H; injection H as <- <-; auto].
  destruct (sink_of w can_open (clock s) sp); intro H; injection H as <- <-; auto.
Qed.
Lemma apply_same : forall s t s' z, logger_apply w can_open s t = Some (s', z) ->
  out s' = out s /\ (forall t', pending s' t' = if Nat.eqb t' t then [] else pending s t') /\
  exists ws, make_writers w can_open (clock s) (pending s t) = Some ws /\
  ((active s = None /\ z = 0%Z /\ active s' = Some (match ws with [] => Plain 3 | _ => Writers ws end)) \/ (exists a, active s = Some a /\ z = (-1)%Z /\ active s' = Some a)).
Proof.
  intros s t s' z. unfold logger_apply. destruct (make_writers w can_open (clock s) (pending s t)) as [ws|] eqn:M; [|discriminate]. intro H; injection H as <- <-.
  match goal with |- context[install ?x ?a] => destruct (installed x a) as (P & OU & AC); set (s1 := x) in * end.
  destruct (ticks (length (pending s t)) (with_pending s t [])) as (A1 & P1 & O1). fold s1 in A1, P1, O1.
  rewrite P, OU, AC, A1, P1, O1. split; [reflexivity|]. split; [reflexivity|]. exists ws. split; [reflexivity|]. cbn [with_pending active].
  destruct (active s) as [a|]; [right; eauto|left; auto].
Qed.
Lemma log_to_same : forall s t spec level s' z, log_to w can_open s t spec level = Some (s', z) ->
  exists s1 code, attach_sink w can_open (logger_init s t) t spec level = (s1, code) /\
  ((code <> 0%Z /\ s' = s1 /\ z = code) \/ (code = 0%Z /\ logger_apply w can_open s1 t = Some (s', z))).
Proof.
  intros s t spec level s' z. unfold log_to. destruct (attach_sink w can_open (logger_init s t) t spec level) as [s1 code]. exists s1, code. split; [reflexivity|].
  destruct (Z.eqb_spec code 0); [right; auto|left]. injection H as <- <-. auto.
Qed.
Lemma attach_pending : forall s t spec level s' z, attach_sink w can_open s t spec level = (s', z) ->
  (forall t', t' <> t -> pending s' t' = pending s t') /\ (z <> 0%Z -> pending s' t = pending s t) /\
  (z = 0%Z -> exists sp k, from_utf8 spec = Some sp /\ names_sink w sp k /\ opens can_open (clock s) k /\ pending s' t = pending s t ++ [(sp, level)]).
Proof.
  intros s t spec level s' z. unfold attach_sink. destruct (from_utf8 spec) as [sp|] eqn:U.
  - destruct (sink_of w can_open (clock s) sp) as [k|c] eqn:S1; intro H; injection H as <- <-.
    + apply sink_ok in S1. split; [|split; [congruence|]].
      * intros t' N0. cbn. destruct (Nat.eqb_spec t' t); [congruence|reflexivity].
      * intros _. exists sp, k. repeat (split; [tauto|]). cbn. now rewrite Nat.eqb_refl.
    + apply sink_codes in S1. split; [reflexivity|split; [reflexivity|]]. intros ->. destruct S1; discriminate.
  - intro H; injection H as <- <-. split; [reflexivity|split; [reflexivity|discriminate]].
Qed.
(** The name of a sink has one meaning. *)
Lemma one_sink : forall t k k', names_sink w t k -> names_sink w t k' -> k = k'.
Proof.
  intros t k k' H H'. assert (A : forall k0, names_sink w t k0 -> sink_of w (fun _ _ => true) 0 t = inl k0) by (intros k0 K; apply sink_ok; split; [exact K|intros p _; reflexivity]).
  apply A in H, H'. congruence.
Qed.
Definition same_sinks (pend : list (str * N)) (l : list (sink * N)) : Prop := Forall2 (fun p k => names_sink w (fst p) (fst k) /\ snd p = snd k) pend l.
Lemma writers_are : forall pend l n ws, same_sinks pend l -> make_writers w can_open n pend = Some ws -> ws = l.
Proof.
  intros pend l n ws H. revert n ws. induction H as [|[sp lv] [k lv'] pend l [K L] _ IH]; intros n ws; cbn; [intro E; injection E as <-; reflexivity|].
  cbn [fst snd] in K, L. subst lv'. destruct (sink_of w can_open n sp) as [k'|] eqn:S1; [|discriminate]. apply sink_ok in S1. destruct S1 as [K' _].
  destruct (make_writers w can_open (S n) pend) as [ws'|] eqn:M; [|discriminate]. intro E; injection E as <-. rewrite (IH _ _ M). now rewrite (one_sink _ _ _ K K').
Qed.
Lemma writers_panic : forall pend l n, same_sinks pend l -> (make_writers w can_open n pend = None <->
  exists l1 p level l2, l = l1 ++ (KFile p, level) :: l2 /\ can_open (n + length l1)%nat p = false).
Proof.
  intros pend l n H. revert n. induction H as [|[sp lv] [k lv'] pend l [K L] _ IH]; intro n; cbn [make_writers].
  - split; [discriminate|]. intros ([|] & ? & ? & ? & E & _); discriminate.
  - cbn [fst snd] in K, L. subst lv'. destruct (sink_of w can_open n sp) as [k'|z] eqn:S1.
    + apply sink_ok in S1. destruct S1 as [K' OP]. assert (k' = k) by (apply (one_sink sp); assumption). subst k'.
      specialize (IH (S n)). destruct (make_writers w can_open (S n) pend) as [ws|].
      * split; [discriminate|]. intros ([|h l1] & p & level & l2 & E & C).
        { injection E as -> -> ->. cbn in C. rewrite Nat.add_0_r, (OP p eq_refl) in C. discriminate. }
        injection E as -> ->. assert (X : Some ws = None) by (apply IH; exists l1, p, level, l2; split; [reflexivity|cbn in C; now rewrite Nat.add_succ_r in C]). discriminate.
      * split; [intros _|reflexivity]. destruct (proj1 IH eq_refl) as (l1 & p & level & l2 & -> & C). exists ((k, lv) :: l1), p, level, l2. split; [reflexivity|]. cbn. now rewrite Nat.add_succ_r.
    + split; [intros _|reflexivity]. destruct (sink_codes _ _ _ _ _ S1) as [->| ->].
      * exfalso. apply sink_unknown with (k := k) in S1. now apply S1.
      * apply sink_no_file in S1. destruct S1 as (p & K' & C). exists [], p, lv, l. rewrite (one_sink sp k (KFile p)) by assumption. split; [reflexivity|]. cbn. now rewrite Nat.add_0_r.
Qed.

(** What a call does to the records, the subscriber and what is pending. *)
Definition fetches (c : call) (x : target) : bool := match c with Fetch i => target_eqb x (TBuffer (from_utf8_or i "global")) | _ => false end.
Lemma step_out : forall s c s' r rs, step s c = Some (s', r, rs) -> exists s0, active s0 = active s /\ (forall x, out s0 x = if fetches c x then [] else out s x) /\ out s' = out (deliver_all s0 rs).
Proof.
  assert (LT : forall s t spec level s' z, log_to w can_open s t spec level = Some (s', z) -> out s' = out s).
  { intros s t spec level s' z H. apply log_to_same in H. destruct H as (s1 & code & A & [(_ & -> & _)|(_ & P)]).
    - now apply attach_same in A.
    - apply attach_same in A. apply apply_same in P. destruct P as (-> & _). tauto. }
  intros s c s' r rs H. destruct c; cbn [Logging.step coded option_map] in H.
  - injection H as <- <- <-. exists s. cbn. auto.
  - destruct (attach_sink w can_open s t spec level) as [s1 z] eqn:A. injection H as <- <- <-. exists s. apply attach_same in A. cbn. tauto.
  - destruct (logger_apply w can_open s t) as [[s1 z]|] eqn:A; [|discriminate]. injection H as <- <- <-. exists s. apply apply_same in A. cbn. tauto.
  - destruct (log_to _ _ s t _ level) as [[s1 z]|] eqn:A; [|discriminate]. injection H as <- <- <-. exists s. apply LT in A. cbn. auto.
  - destruct (log_to _ _ s t _ level) as [[s1 z]|] eqn:A; [|discriminate]. injection H as <- <- <-. exists s. apply LT in A. cbn. auto.
  - destruct (log_to _ _ s t _ level) as [[s1 z]|] eqn:A; [|discriminate]. injection H as <- <- <-. exists s. apply LT in A. cbn. auto.
  - destruct name as [b|]; [|injection H as <- <- <-; exists s; cbn; auto]. destruct (from_utf8 b) as [f|]; [|injection H as <- <- <-; exists s; cbn; auto].
    destruct (log_to _ _ s t _ level) as [[s1 z]|] eqn:A; [|discriminate]. injection H as <- <- <-. exists s. apply LT in A. cbn [fst]. auto.
  - injection H as <- <- <-. exists s. split; [reflexivity|]. split; [reflexivity|]. apply installed.
  - destruct (given_filter render s name) as [l rs0]. injection H as <- <- <-. exists s. split; [reflexivity|]. split; [reflexivity|]. apply installed.
  - injection H as <- <- <-. exists s. auto.
  - injection H as <- <- <-. exists s. auto.
  - destruct (fetch render s id) as [[s1 text] rs0] eqn:F. injection H as <- <- <-. exists s1. unfold fetch in F.
    destruct (from_utf8 _); [destruct (existsb _ _)|]; injection F as <- <- <-; cbn [with_out active out fetches]; auto.
Qed.
Lemma step_active : forall s c s' r rs, step s c = Some (s', r, rs) ->
  (forall a, active s = Some a -> active s' = Some a /\ (is_apply c -> r <> RCode 0)) /\
  (active s = None -> installs (c, r, rs) \/ active s' = None).
Proof.
  assert (LT : forall s t spec level s' z, log_to w can_open s t spec level = Some (s', z) ->
    (forall a, active s = Some a -> active s' = Some a /\ z <> 0%Z) /\ (active s = None -> z = 0%Z \/ active s' = None)).
  { intros s t spec level s' z H. apply log_to_same in H. destruct H as (s1 & code & A & [(N0 & -> & ->)|(_ & P)]); apply attach_same in A; destruct A as [A _]; cbn in A.
    - rewrite A. split; [auto|auto].
    - apply apply_same in P. destruct P as (_ & _ & ws & _ & [(N1 & -> & AC)|(a & N1 & -> & AC)]).
      + split; [congruence|auto].
      + rewrite N1 in A. split; [|congruence]. intros b E. split; [congruence|discriminate]. }
  unfold installs. intros s c s' r rs H. destruct c; cbn [Logging.step coded option_map fst snd is_init is_apply] in *.
  - injection H as <- <- <-. cbn. auto.
  - destruct (attach_sink w can_open s t spec level) as [s1 z] eqn:A. injection H as <- <- <-. apply attach_same in A. destruct A as [-> _]. auto.
  - destruct (logger_apply w can_open s t) as [[s1 z]|] eqn:A; [|discriminate]. injection H as <- <- <-. apply apply_same in A. destruct A as (_ & _ & ws & _ & [(N1 & -> & AC)|(a & N1 & -> & AC)]); cbn [fst snd] in *; split; intros; try congruence; auto.
    + split; [congruence|]. intros _. discriminate.
  - destruct (log_to _ _ s t _ level) as [[s1 z]|] eqn:A; [|discriminate]. injection H as <- <- <-. apply LT in A. destruct A as [A B]. cbn [fst snd]. split; [intros a E; destruct (A a E); split; [assumption|congruence]|]. intro E. destruct (B E) as [->|]; auto.
  - destruct (log_to _ _ s t _ level) as [[s1 z]|] eqn:A; [|discriminate]. injection H as <- <- <-. apply LT in A. destruct A as [A B]. cbn [fst snd]. split; [intros a E; destruct (A a E); split; [assumption|congruence]|]. intro E. destruct (B E) as [->|]; auto.
  - destruct (log_to _ _ s t _ level) as [[s1 z]|] eqn:A; [|discriminate]. injection H as <- <- <-. apply LT in A. destruct A as [A B]. cbn [fst snd]. split; [intros a E; destruct (A a E); split; [assumption|congruence]|]. intro E. destruct (B E) as [->|]; auto.
  - destruct name as [b|]; [|injection H as <- <- <-; cbn; split; [intros a E; split; [exact E|intros _; discriminate]|auto]].
    destruct (from_utf8 b) as [f|]; [|injection H as <- <- <-; cbn; split; [intros a E; split; [exact E|intros _; discriminate]|auto]].
    destruct (log_to _ _ s t _ level) as [[s1 z]|] eqn:A; [|discriminate]. injection H as <- <- <-. apply LT in A. destruct A as [A B]. cbn [fst snd]. split; [intros a E; destruct (A a E); split; [assumption|congruence]|]. intro E. destruct (B E) as [->|]; auto.
  - injection H as <- <- <-. match goal with |- context[install ?x ?a] => destruct (installed x a) as (_ & _ & AC) end. rewrite AC, (proj1 (deliver_all_same _ s)). split; [intros a ->; auto|auto].
  - destruct (given_filter render s name) as [l rs0]. injection H as <- <- <-. match goal with |- context[install ?x ?a] => destruct (installed x a) as (_ & _ & AC) end. rewrite AC, (proj1 (deliver_all_same _ s)). split; [intros a ->; auto|auto].
  - injection H as <- <- <-. rewrite (proj1 (deliver_all_same _ s)). auto.
  - injection H as <- <- <-. rewrite (proj1 (deliver_same s r0)). auto.
  - destruct (fetch render s id) as [[s1 text] rs0] eqn:F. injection H as <- <- <-. rewrite (proj1 (deliver_all_same _ s1)).
    assert (E : active s1 = active s) by (unfold fetch in F; destruct (from_utf8 _); [destruct (existsb _ _)|]; injection F as <- <- <-; reflexivity). rewrite E. auto.
Qed.
Lemma step_pending : forall s c s' r rs t, step s c = Some (s', r, rs) ->
  (clears t c -> pending s' t = []) /\
  (~ clears t c -> (forall spec level, c = Attach t spec level -> r <> RCode 0) -> pending s' t = pending s t) /\
  (forall spec level, c = Attach t spec level -> r = RCode 0 -> exists sp k, from_utf8 spec = Some sp /\ names_sink w sp k /\ pending s' t = pending s t ++ [(sp, level)]).
Proof.
  assert (LT : forall s u spec level s' z t, log_to w can_open s u spec level = Some (s', z) -> pending s' t = if Nat.eqb t u then [] else pending s t).
  { intros s u spec level s' z t H. apply log_to_same in H. destruct H as (s1 & code & A & [(N0 & -> & ->)|(_ & P)]); apply attach_pending in A; destruct A as (A1 & A2 & _).
    - destruct (Nat.eqb_spec t u) as [->|N1]; [rewrite (A2 N0); cbn; now rewrite Nat.eqb_refl|rewrite (A1 t N1); cbn]. destruct (Nat.eqb_spec t u); [congruence|reflexivity].
    - apply apply_same in P. destruct P as (_ & P & _). rewrite P. destruct (Nat.eqb_spec t u) as [->|N1]; [reflexivity|]. rewrite (A1 t N1). cbn. destruct (Nat.eqb_spec t u); [congruence|reflexivity]. }
  assert (GO : forall u t s s' : nat, True) by auto. clear GO.
  assert (CL : forall (t u : nat) (l : list (str * N)) X, X = (if Nat.eqb t u then [] else l) -> (u = t -> X = []) /\ (u <> t -> X = l)).
  { intros t u l X ->. destruct (Nat.eqb_spec t u); split; congruence. }
  intros s c s' r rs t H. destruct c as [u|u sp lv|u|u lv|u lv|u lv|u nm lv|nm|nm|so le te|r0|i]; cbn [Logging.step coded option_map clears] in *.
  - injection H as <- <- <-. destruct (CL t u (pending s t) _ eq_refl) as [A B]. split; [exact A|split; [intros N0 _; exact (B N0)|discriminate]].
  - destruct (attach_sink w can_open s u sp lv) as [s1 z] eqn:A. injection H as <- <- <-. apply attach_pending in A. destruct A as (A1 & A2 & A3). cbn [fst snd].
    split; [intros []|split].
    + intros _ N0. destruct (Nat.eq_dec t u) as [->|N1]; [|exact (A1 t N1)]. apply A2. intros ->. now apply (N0 sp lv).
    + intros spec level E E0. injection E as -> -> ->. injection E0 as ->. destruct (A3 eq_refl) as (sp0 & k & U & K & _ & P). eauto.
  - destruct (logger_apply w can_open s u) as [[s1 z]|] eqn:A; [|discriminate]. injection H as <- <- <-. apply apply_same in A. destruct A as (_ & A & _). cbn [fst].
    destruct (CL t u (pending s t) _ (A t)) as [B C]. split; [exact B|split; [intros N0 _; exact (C N0)|discriminate]].
  - destruct (log_to _ _ s u _ lv) as [[s1 z]|] eqn:A; [|discriminate]. injection H as <- <- <-. apply LT with (t := t) in A. cbn [fst]. destruct (CL t u (pending s t) _ A) as [B C]. split; [exact B|split; [intros N0 _; exact (C N0)|discriminate]].
  - destruct (log_to _ _ s u _ lv) as [[s1 z]|] eqn:A; [|discriminate]. injection H as <- <- <-. apply LT with (t := t) in A. cbn [fst]. destruct (CL t u (pending s t) _ A) as [B C]. split; [exact B|split; [intros N0 _; exact (C N0)|discriminate]].
  - destruct (log_to _ _ s u _ lv) as [[s1 z]|] eqn:A; [|discriminate]. injection H as <- <- <-. apply LT with (t := t) in A. cbn [fst]. destruct (CL t u (pending s t) _ A) as [B C]. split; [exact B|split; [intros N0 _; exact (C N0)|discriminate]].
  - assert (E : pending s' t = if Nat.eqb t u then [] else pending s t).
    { destruct nm as [b|]; [|injection H as <- <- <-; reflexivity]. destruct (from_utf8 b) as [f|]; [|injection H as <- <- <-; reflexivity].
      destruct (log_to _ _ s u _ lv) as [[s1 z]|] eqn:A; [|discriminate]. injection H as <- <- <-. now apply LT with (t := t) in A. }
    destruct (CL t u (pending s t) _ E) as [B C]. split; [exact B|split; [intros N0 _; exact (C N0)|discriminate]].
  - injection H as <- <- <-. match goal with |- context[install ?x ?a] => destruct (installed x a) as (P & _ & _) end. rewrite P, (proj1 (proj2 (deliver_all_same _ s))). split; [intros []|split; [reflexivity|discriminate]].
  - destruct (given_filter render s nm) as [l rs0]. injection H as <- <- <-. match goal with |- context[install ?x ?a] => destruct (installed x a) as (P & _ & _) end. rewrite P, (proj1 (proj2 (deliver_all_same _ s))). split; [intros []|split; [reflexivity|discriminate]].
  - injection H as <- <- <-. rewrite (proj1 (proj2 (deliver_all_same _ s))). split; [intros []|split; [reflexivity|discriminate]].
  - injection H as <- <- <-. rewrite (proj1 (proj2 (deliver_same s r0))). split; [intros []|split; [reflexivity|discriminate]].
  - destruct (fetch render s i) as [[s1 text] rs0] eqn:F. injection H as <- <- <-. rewrite (proj1 (proj2 (deliver_all_same _ s1))).
    assert (E : pending s1 = pending s) by (unfold fetch in F; destruct (from_utf8 _); [destruct (existsb _ _)|]; injection F as <- <- <-; reflexivity). rewrite E.
    split; [intros []|split; [reflexivity|discriminate]].
Qed.
End Proofs.
