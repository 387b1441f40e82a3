(** C124: what logging through the C interface writes. *)
From Coq Require Import Ascii String List Arith NArith ZArith Lia Bool.
From Verif Require Import Base PathExp Json Text TextProofs SpecCliArgs Logging SpecLogging PropLogging PropLogging2 PropLogging3.
From Verif Require Import QueryProofs PropPattern3.
Import ListNotations.
Open Scope N_scope.

Lemma written_app : forall x l a b rs rs', written x l rs a -> written x l rs' b -> written x l (rs ++ rs') (a ++ b).
Proof.
  intros x l a b rs rs' H H'. induction H; [exact H'|]. cbn [app]. rewrite <- app_assoc. now constructor.
Qed.
Lemma names_buffer_iff : forall c id, names_buffer c id <-> from_utf8_or c "global" = id.
Proof.
  intros [b|] id; unfold names_buffer, from_utf8_or.
  - destruct (from_utf8 b) as [t|] eqn:U.
    + split; [intros [(b' & E & X)|[[E|(b' & E & X)] _]]; [injection E as <-; congruence|discriminate|injection E as <-; congruence]|intros <-; left; eauto].
    + split; [intros [(b' & E & X)|[_ ->]]; [injection E as <-; congruence|reflexivity]|intros <-; right; split; [right; eauto|reflexivity]].
  - split; [intros [(b' & E & X)|[_ ->]]; [discriminate|reflexivity]|intros <-; right; auto].
Qed.
Lemma c_text_iff : forall b, c_text b <-> (exists t, from_utf8 b = Some t) /\ existsb (N.eqb 0) b = false.
Proof.
  intro b. unfold c_text. assert (E : ~ In 0 b <-> existsb (N.eqb 0) b = false).
  { rewrite <- not_true_iff_false, existsb_exists. split.
    - intros H (x & I & E). apply N.eqb_eq in E. now subst.
    - intros H I. apply H. exists 0. auto. }
  now rewrite E.
Qed.

Ltac no_snoc := match goal with
  | E : _ ++ _ :: _ = [] |- _ => apply app_eq_nil in E; destruct E; discriminate
  | E : [] = _ ++ _ :: _ |- _ => symmetry in E; apply app_eq_nil in E; destruct E; discriminate
  end.
Section Proofs.
Variable w : world.
Variable can_open : nat -> str -> bool.
Variable render : nat -> message -> list N.
Variable passes : str -> record -> bool.
Notation deliver_all := (deliver_all passes).
Notation step := (step w can_open render passes).
Notation runs := (runs w can_open render passes).

Lemma runs_app : forall tr1 tr2 s s2, runs s (tr1 ++ tr2) s2 <-> exists s1, runs s tr1 s1 /\ runs s1 tr2 s2.
Proof.
  induction tr1 as [|i tr1 IH]; intros tr2 s s2; cbn [app].
  - split; [intro H; exists s; split; [constructor|exact H]|]. intros (s1 & H & H'). inversion H; subst. exact H'.
  - split.
    + intro H. inversion H as [|s0 c s1 r rs tr s3 ST R]; subst. apply IH in R. destruct R as (s4 & A & B). exists s4. split; [|exact B]. now apply runs_one with (s1 := s1).
    + intros (s1 & H & H'). inversion H as [|s0 c s3 r rs tr s4 ST R]; subst. apply runs_one with (s1 := s3); [exact ST|]. apply IH. eauto.
Qed.
Lemma runs_unit : forall c r rs s s2, runs s [(c, r, rs)] s2 <-> step (tick s) c = Some (s2, r, rs).
Proof.
  intros c r rs s s2. split.
  - intro H. inversion H as [|s0 c0 s1 r0 rs0 tr s3 ST R]; subst. inversion R; subst. exact ST.
  - intro H. apply runs_one with (s1 := s2); [exact H|constructor].
Qed.

(** ** What is attached *)
Theorem C124_attached_one : forall t tr l, attached w t tr l -> forall l', attached w t tr l' -> l = l'.
Proof.
  intros t tr l H. induction H as [|tr c r rs CL|tr l spec k level rs H IH D|tr l c r rs H IH NC NA]; intros l' H'.
  - inversion H' as [|tr0 c r rs CL E|tr0 l0 spec k level rs H0 D E|tr0 l0 c r rs H0 NC NA E]; try reflexivity; no_snoc.
  - inversion H' as [E|tr0 c0 r0 rs0 CL0 E|tr0 l0 spec k level rs0 H0 D E|tr0 l0 c0 r0 rs0 H0 NC NA E]; subst; try reflexivity.
    + apply app_inj_tail in E. destruct E as [_ E]. injection E as <- _ _. destruct CL.
    + apply app_inj_tail in E. destruct E as [_ E]. injection E as <- _ _. now apply NC in CL.
  - inversion H' as [E|tr0 c0 r0 rs0 CL0 E|tr0 l0 spec0 k0 level0 rs0 H0 D0 E|tr0 l0 c0 r0 rs0 H0 NC NA E]; subst.
    + no_snoc.
    + apply app_inj_tail in E. destruct E as [_ E]. injection E as -> _ _. destruct CL0.
    + apply app_inj_tail in E. destruct E as [-> E]. injection E as -> -> _. destruct D as (t1 & U & K). destruct D0 as (t2 & U' & K'). rewrite U in U'. injection U' as <-.
      rewrite (one_sink w _ _ _ K K'). now rewrite (IH _ H0).
    + apply app_inj_tail in E. destruct E as [_ E]. injection E as -> -> _. exfalso. now apply (NA spec level).
  - inversion H' as [E|tr0 c0 r0 rs0 CL0 E|tr0 l0 spec0 k0 level0 rs0 H0 D0 E|tr0 l0 c0 r0 rs0 H0 NC0 NA0 E]; subst.
    + no_snoc.
    + apply app_inj_tail in E. destruct E as [_ E]. injection E as -> _ _. now apply NC in CL0.
    + apply app_inj_tail in E. destruct E as [_ E]. injection E as <- <- _. exfalso. now apply (NA spec0 level0).
    + apply app_inj_tail in E. destruct E as [-> _]. now apply IH.
Qed.
Lemma attached_some : forall t tr s, runs no_logs tr s -> exists l, attached w t tr l /\ same_sinks w (pending s t) l.
Proof.
  intros t tr. induction tr as [|[[c r] rs] tr IH] using rev_ind; intros s H.
  - inversion H; subst. exists []. split; constructor.
  - apply runs_app in H. destruct H as (s1 & H & ST). apply runs_unit in ST. destruct (IH s1 H) as (l & A & SS).
    apply (step_pending w can_open render passes) with (t := t) in ST. cbn [tick pending] in ST. destruct ST as (C1 & C2 & C3).
    assert (DC : clears t c \/ ~ clears t c) by (unfold clears; destruct c; try tauto; lia).
    destruct DC as [CL|NC].
    { exists []. split; [now constructor|]. rewrite (C1 CL). constructor. }
    assert (DA : (exists spec level, c = Attach t spec level /\ r = RCode 0) \/ (forall spec level, c = Attach t spec level -> r <> RCode 0)).
    { destruct c; try (right; discriminate). destruct (Nat.eq_dec t0 t) as [->|NE]; [|right; intros ? ? E; injection E as <- _ _; congruence].
      destruct r as [z| |]; try (right; discriminate). destruct (Z.eq_dec z 0) as [->|NZ]; [left; eauto|right; congruence]. }
    destruct DA as [(spec & level & -> & ->)|NA].
    + destruct (C3 spec level eq_refl eq_refl) as (sp & k & U & K & P). exists (l ++ [(k, level)]). split; [apply at_more; [exact A|exists sp; auto]|].
      rewrite P. apply Forall2_app; [exact SS|]. constructor; [cbn; auto|constructor].
    + exists l. split; [now apply at_same|]. rewrite (C2 NC NA). exact SS.
Qed.

(** ** What is written *)
Lemma fetched : forall s i s' r rs, step s (Fetch i) = Some (s', r, rs) ->
  (c_text (out s (TBuffer (from_utf8_or i "global"))) /\ r = RText (Some (out s (TBuffer (from_utf8_or i "global"))))) \/
  (~ c_text (out s (TBuffer (from_utf8_or i "global"))) /\ r = RText None).
Proof.
  intros s i s' r rs. cbn [Logging.step]. unfold fetch. set (b := out s _). pose proof (c_text_iff b) as CT. destruct (from_utf8 b) as [t|] eqn:U.
  - destruct (existsb (N.eqb 0) b) eqn:Z.
    + intro H; injection H as <- <- <-. right. split; [|reflexivity]. intro X. apply CT in X. destruct X as [_ X]. congruence.
    + intro H; injection H as <- <- <-. left. split; [|reflexivity]. apply CT. eauto.
  - intro H; injection H as <- <- <-. right. split; [|reflexivity]. intro X. apply CT in X. destruct X as [(t & X) _]. congruence.
Qed.
Lemma fetches_iff : forall c x, fetches c x = true <-> exists i id, c = Fetch i /\ names_buffer i id /\ x = TBuffer id.
Proof.
  intros c x. unfold fetches. destruct c; try (split; [discriminate|intros (? & ? & E & _); discriminate]).
  rewrite target_eqb_iff. split.
  - intros ->. exists id, (from_utf8_or id "global"). split; [reflexivity|]. split; [now apply names_buffer_iff|reflexivity].
  - intros (i & id' & E & NB & ->). injection E as <-. apply names_buffer_iff in NB. now rewrite NB.
Qed.
Definition is_buffer (x : target) : Prop := exists id, x = TBuffer id.
Lemma kept : forall s tr s', runs s tr s' -> forall a l, active s = Some a -> sinks_are a l ->
  active s' = Some a /\
  (forall x, ~ is_buffer x -> exists b, written x l (records tr) b /\ out s' x = out s x ++ b) /\
  (forall id, exists bt bw, taken id tr bt /\ written (TBuffer id) l (records tr) bw /\ out s (TBuffer id) ++ bw = bt ++ out s' (TBuffer id)).
Proof.
  intros s tr s' H. induction H as [s|s c s1 r rs tr s2 ST R IH]; intros a l A SK.
  - split; [exact A|]. split; [intros x _; exists []; split; [constructor|now rewrite app_nil_r]|]. intro id. exists [], []. split; [constructor|]. split; [constructor|now rewrite app_nil_r].
  - pose proof (step_active w can_open render passes _ _ _ _ _ ST) as [SA _]. destruct (SA a A) as [A1 _].
    destruct (IH a l A1 SK) as (A2 & X & Y). split; [exact A2|].
    destruct (step_out w can_open render passes _ _ _ _ _ ST) as (s0 & A0 & O0 & O1). cbn [tick active out] in A0, O0. rewrite A in A0.
    change (records ((c, r, rs) :: tr)) with (rs ++ records tr). split.
    + intros x NB. destruct (X x NB) as (b & W & E). destruct (deliver_writes passes rs s0 a l x A0 SK) as (b1 & W1 & E1). exists (b1 ++ b). split; [now apply written_app|].
      rewrite E, O1, E1, O0. destruct (fetches c x) eqn:F; [|now rewrite app_assoc]. apply fetches_iff in F. destruct F as (i & id & _ & _ & ->). exfalso. apply NB. now exists id.
    + intro id. destruct (Y id) as (bt & bw & T & W & E). destruct (deliver_writes passes rs s0 a l (TBuffer id) A0 SK) as (b1 & W1 & E1). rewrite O1, E1, O0 in E.
      destruct (fetches c (TBuffer id)) eqn:F.
      * apply fetches_iff in F. destruct F as (i & id' & -> & NB & EQ). injection EQ as <-. cbn [app] in E.
        exists (out s (TBuffer id) ++ bt), (b1 ++ bw). split; [|split; [now apply written_app|rewrite <- (app_assoc _ bt), <- E; reflexivity]].
        apply fetched in ST. cbn [tick out] in ST. rewrite (proj1 (names_buffer_iff _ _) NB) in ST. destruct ST as [[CT ->]|[CT ->]]; [now apply tk_text|now apply tk_lost].
      * exists bt, (b1 ++ bw). split; [|split; [now apply written_app|now rewrite app_assoc]]. apply tk_other; [|exact T].
        intros i -> NB. assert (fetches (Fetch i) (TBuffer id) = true) by (apply fetches_iff; eauto). congruence.
Qed.
Lemma silent : forall tr s s', runs s tr s' -> active s = None -> Forall (fun i => ~ installs i) tr -> active s' = None /\ (forall x, out s x = [] -> out s' x = []).
Proof.
  intros tr s s' H. induction H as [s|s c s1 r rs tr s2 ST R IH]; intros A F; [auto|]. inversion F as [|? ? NI F']; subst.
  pose proof (step_active w can_open render passes _ _ _ _ _ ST) as [_ SA]. destruct (SA A) as [I|A1]; [now apply NI in I|].
  destruct (IH A1 F') as [A2 X]. split; [exact A2|]. intros x E. apply X.
  destruct (step_out w can_open render passes _ _ _ _ _ ST) as (s0 & A0 & O0 & O1). cbn [tick active out] in A0, O0. rewrite O1, (deliver_none passes rs s0) by congruence. rewrite O0, E. now destruct (fetches c x).
Qed.
(** Nothing is written before the logging was started. *)
Theorem C124_nothing : forall tr s, runs no_logs tr s -> Forall (fun i => ~ installs i) tr -> forall x, out s x = [].
Proof. intros tr s H F x. now apply (proj2 (silent tr no_logs s H eq_refl F)). Qed.
(** It is started once: the others are refused, whatever they are. *)
Lemma installs_active : forall s c s1 r rs, step s c = Some (s1, r, rs) -> installs (c, r, rs) -> exists a, active s1 = Some a.
Proof.
  intros s c s1 r rs ST I. destruct (active s) as [a|] eqn:A.
  { exists a. now apply (step_active w can_open render passes _ _ _ _ _ ST). }
  assert (LT : forall s0 t spec level s' , active s0 = None -> log_to w can_open s0 t spec level = Some (s', 0%Z) -> exists a, active s' = Some a).
  { intros s0 t spec level s' A0 H. apply log_to_same in H. destruct H as (s2 & code & AT & [(N0 & _ & E)|(_ & P)]); [congruence|].
    apply apply_same in P. destruct P as (_ & _ & ws & _ & [(_ & _ & E)|(b & _ & E & _)]); [eauto|discriminate]. }
  assert (CO : forall o, coded o = Some (s1, r, rs) -> r = RCode 0 -> o = Some (s1, 0%Z)).
  { intros [[s2 z]|] E E0; [|discriminate]. cbn in E. injection E as <- <- <-. now injection E0 as ->. }
  destruct I as [I|[I E0]]; destruct c; try destruct I; cbn [fst snd Logging.step] in *.
  - injection ST as <- _ _. match goal with |- context[install ?x ?a] => destruct (installed x a) as (_ & _ & AC) end. rewrite AC, (proj1 (deliver_all_same passes _ s)), A. eauto.
  - destruct (given_filter render s name) as [l rs0]. injection ST as <- _ _. match goal with |- context[install ?x ?a] => destruct (installed x a) as (_ & _ & AC) end. rewrite AC, (proj1 (deliver_all_same passes _ s)), A. eauto.
  - apply CO in ST; [|exact E0]. apply apply_same in ST. destruct ST as (_ & _ & ws & _ & [(_ & _ & E)|(b & _ & E & _)]); [eauto|discriminate].
  - apply CO in ST; [|exact E0]. now apply LT in ST.
  - apply CO in ST; [|exact E0]. now apply LT in ST.
  - apply CO in ST; [|exact E0]. now apply LT in ST.
  - apply CO in ST; [|exact E0]. destruct name as [b|]; [|discriminate]. destruct (from_utf8 b); [|discriminate]. now apply LT in ST.
Qed.
Lemma stays : forall s tr s', runs s tr s' -> forall a, active s = Some a -> active s' = Some a.
Proof.
  intros s tr s' H. induction H as [s|s c s1 r rs tr s2 ST R IH]; intros a A; [exact A|]. apply IH. now apply (step_active w can_open render passes _ _ _ _ _ ST).
Qed.
Theorem C124_once : forall tr1 i tr2 c r rs s, runs no_logs (tr1 ++ i :: tr2 ++ [(c, r, rs)]) s -> installs i -> is_apply c -> r <> RCode 0.
Proof.
  intros tr1 [[c0 r0] rs0] tr2 c r rs s H I AP. apply runs_app in H. destruct H as (s1 & _ & H). inversion H as [|s0 c1 s2 r1 rs1 tr s3 ST R]; subst.
  apply runs_app in R. destruct R as (s3 & R & L). apply runs_unit in L. destruct (installs_active _ _ _ _ _ ST I) as (a & A). apply (stays _ _ _ R) in A.
  apply (step_active w can_open render passes) in L. destruct L as [L _]. now apply (L a A).
Qed.
(** Every record goes, in its turn, to every sink of its level or a higher one. Buffers keep what was not fetched. *)
Theorem C124_records : forall tr1 c r rs tr2 s, runs no_logs (tr1 ++ (c, r, rs) :: tr2) s -> Forall (fun i => ~ installs i) tr1 -> installs (c, r, rs) -> (forall n, c <> InitFromEnv n) ->
  exists l, sets_up w tr1 c l /\
  (forall x, (forall id, x <> TBuffer id) -> written x l (records tr2) (out s x)) /\
  (forall id, exists b, taken id tr2 b /\ written (TBuffer id) l (records tr2) (b ++ out s (TBuffer id))).
Proof.
  intros tr1 c r rs tr2 s H F I NE. apply runs_app in H. destruct H as (s1 & R1 & H). inversion H as [|s0 c1 s2 r1 rs1 tr s3 ST R]; subst.
  destruct (silent _ _ _ R1 eq_refl F) as [A1 O1]. specialize (fun x => O1 x eq_refl).
  assert (GO : forall a l, active s2 = Some a -> sinks_are a l -> (forall x, out s2 x = []) -> sets_up w tr1 c l -> exists l, sets_up w tr1 c l /\
    (forall x, (forall id, x <> TBuffer id) -> written x l (records tr2) (out s x)) /\ (forall id, exists b, taken id tr2 b /\ written (TBuffer id) l (records tr2) (b ++ out s (TBuffer id)))).
  { intros a l A SK O SU. exists l. split; [exact SU|]. destruct (kept _ _ _ R a l A SK) as (_ & X & Y). split.
    - intros x NB. destruct (X x) as (b & W & E); [intros (id & ->); now apply (NB id)|]. rewrite O in E. cbn in E. now rewrite E.
    - intro id. destruct (Y id) as (bt & bw & T & W & E). rewrite O in E. cbn in E. subst bw. eauto. }
  assert (OS : forall x, out s2 x = []).
  { intro x. destruct (step_out w can_open render passes _ _ _ _ _ ST) as (s0 & A0 & O0 & O2). cbn [tick active out] in A0, O0. rewrite O2, (deliver_none passes rs s0) by congruence. rewrite O0, O1. now destruct (fetches c x). }
  assert (CO : forall o, coded o = Some (s2, r, rs) -> r = RCode 0 -> o = Some (s2, 0%Z)).
  { intros [[s4 z]|] E E0; [|discriminate]. cbn in E. injection E as <- <- <-. now injection E0 as ->. }
  assert (AP : forall s4 t l, logger_apply w can_open s4 t = Some (s2, 0%Z) -> same_sinks w (pending s4 t) l -> exists a, active s2 = Some a /\ sinks_are a (or_default l)).
  { intros s4 t l P SS. apply apply_same in P. destruct P as (_ & _ & ws & M & [(_ & _ & E)|(b & _ & E & _)]); [|discriminate].
    rewrite (writers_are w can_open _ _ _ _ SS M) in E. eexists. split; [exact E|]. destruct l; [right; cbn; eauto|left; reflexivity]. }
  assert (LT : forall t spec level, log_to w can_open (tick s1) t spec level = Some (s2, 0%Z) -> exists sp k a, from_utf8 spec = Some sp /\ names_sink w sp k /\ active s2 = Some a /\ sinks_are a [(k, level)]).
  { intros t spec level P. apply log_to_same in P. destruct P as (s4 & code & AT & [(N0 & _ & E)|(-> & P)]); [congruence|].
    apply (attach_pending w can_open render passes) in AT. destruct AT as (_ & _ & AT). destruct (AT eq_refl) as (sp & k & U & K & _ & PE). cbn [logger_init with_pending pending] in PE. rewrite Nat.eqb_refl in PE. cbn [app] in PE.
    destruct (AP s4 t [(k, level)]) as (a & E & SK).
    - exact P.
    - rewrite PE. constructor; [cbn [fst snd]; split; [exact K|reflexivity]|constructor].
    - exists sp, k, a. repeat (split; [assumption|]). exact SK. }
  assert (WD : forall b : string, In b ["stdout"; "stderr"; "buffer"]%string -> names_sink w (S_ b) (match b with "stdout" => KOut | "stderr" => KErr | _ => KBuffer end)%string).
  { assert (PD : forall t, padded w t t) by (intro t; exists [], []; split; [now rewrite app_nil_r|split; constructor]).
    intros b [<-|[<-|[<-|[]]]]; [apply ns_out|apply ns_err|apply ns_buffer]; apply PD. }
  destruct I as [I|[I E0]]; destruct c; try destruct I; cbn [fst snd Logging.step] in *.
  - now destruct (NE name).
  - destruct (given_filter render (tick s1) name) as [l rs0] eqn:G. injection ST as <- _ _. match type of R with Logging.runs _ _ _ _ (install ?x ?a) _ _ => destruct (installed x a) as (_ & _ & AC) end.
    rewrite (proj1 (deliver_all_same passes _ _)) in AC. cbn [tick active] in AC. rewrite A1 in AC. apply (GO (Plain l) [(KOut, l)]); [exact AC|right; eauto|exact OS|].
    apply su_level. pose proof (proj2 (C124_level render (tick s1) name)) as L. now rewrite G in L.
  - apply CO in ST; [|exact E0]. destruct (attached_some t tr1 s1 R1) as (l & A & SS). destruct (AP _ t l ST SS) as (a & E & SK). apply (GO a (or_default l)); auto. now constructor.
  - apply CO in ST; [|exact E0]. apply LT in ST. destruct ST as (sp & k & a & U & K & A & SK). rewrite from_utf8_ascii in U by (intros ch IN; cbn in IN; lia).
    injection U as <-. rewrite (one_sink w _ _ _ K (WD "stdout"%string ltac:(cbn; auto))) in SK. apply (GO a [(KOut, level)]); auto. constructor.
  - apply CO in ST; [|exact E0]. apply LT in ST. destruct ST as (sp & k & a & U & K & A & SK). rewrite from_utf8_ascii in U by (intros ch IN; cbn in IN; lia).
    injection U as <-. rewrite (one_sink w _ _ _ K (WD "stderr"%string ltac:(cbn; auto))) in SK. apply (GO a [(KErr, level)]); auto. constructor.
  - apply CO in ST; [|exact E0]. apply LT in ST. destruct ST as (sp & k & a & U & K & A & SK). rewrite from_utf8_ascii in U by (intros ch IN; cbn in IN; lia).
    injection U as <-. rewrite (one_sink w _ _ _ K (WD "buffer"%string ltac:(cbn; auto))) in SK. apply (GO a [(KBuffer, level)]); auto. constructor.
  - apply CO in ST; [|exact E0]. destruct name as [b|]; [|discriminate]. destruct (from_utf8 b) as [f|] eqn:FB; [|discriminate]. apply LT in ST. destruct ST as (sp & k & a & U & K & A & SK).
    assert (V : Some sp = Some (S_ "file " ++ f)).
    { rewrite <- U. apply from_utf8_utf8. rewrite forallb_app. apply andb_true_intro. split; [reflexivity|]. now apply (from_utf8_inv _ _ FB). }
    injection V as ->.
    assert (NW : forall core, padded w core (S_ "file " ++ f) -> hd 0 core = 102 \/ core = []).
    { intros core (p & q & E & P & _). destruct p as [|c p]; [destruct core as [|c core]; [auto|left; injection E as <-; reflexivity]|].
      exfalso. injection E as <- _. inversion P as [|? ? W _]; subst. discriminate. }
    assert (KF : exists p, k = KFile p).
    { inversion K as [Q|Q|Q|p c C Q]; subst; [| | |eauto]; apply NW in Q; destruct Q as [Q|Q]; discriminate. }
    destruct KF as (p & ->). apply (GO a [(KFile p, level)]); auto. now apply su_file with (f := f).
Qed.
(** Applying ends the program: when a file that was attached can no longer be opened. *)
Theorem C124_why_apply_can_end_the_program : forall t tr s, runs no_logs tr s -> exists l, attached w t tr l /\
  (step (tick s) (Apply t) = None <-> exists l1 p level l2, l = l1 ++ (KFile p, level) :: l2 /\ can_open (S (clock s) + length l1)%nat p = false).
Proof.
  intros t tr s H. destruct (attached_some t tr s H) as (l & A & SS). exists l. split; [exact A|].
  rewrite <- (writers_panic w can_open (pending s t) l (S (clock s)) SS). cbn [Logging.step]. unfold coded, logger_apply. cbn [tick pending clock].
  destruct (make_writers w can_open (S (clock s)) (pending s t)); cbn; split; intro X; congruence.
Qed.
(** The answers of applying and of the calls that do all at once. *)
Definition refused (s : logs) : Z := match active s with Some _ => (-1)%Z | None => 0%Z end.
Lemma word_sink : forall (b : string) time, In b ["stdout"; "stderr"; "buffer"]%string -> exists k, sink_of w can_open time (S_ b) = inl k.
Proof.
  assert (PD : forall t, padded w t t) by (intro t; exists [], []; split; [now rewrite app_nil_r|split; constructor]).
  intros b time [<-|[<-|[<-|[]]]]; eexists; apply sink_ok; (split; [first [apply ns_out; apply PD|apply ns_err; apply PD|apply ns_buffer; apply PD]|intros p E; discriminate]).
Qed.
Lemma word_code : forall (b : string) s t level s' z, In b ["stdout"; "stderr"; "buffer"]%string -> log_to w can_open s t (utf8 (S_ b)) level = Some (s', z) -> z = refused s.
Proof.
  intros b s t level s' z I. unfold log_to, attach_sink. rewrite from_utf8_utf8 by (destruct I as [<-|[<-|[<-|[]]]]; reflexivity).
  destruct (word_sink b (clock (logger_init s t)) I) as (k & ->). cbn [Z.eqb]. unfold logger_apply. destruct (make_writers _ _ _ _) as [ws|]; [|discriminate]. intro H; injection H as _ <-. reflexivity.
Qed.
Theorem C124_codes : forall s c s' r rs, step s c = Some (s', r, rs) -> is_apply c -> exists z, r = RCode z /\ rs = [] /\
  match c with
  | ToFile _ name _ =>
      In z [0; -1; -4; -6; -7]%Z /\
      (z = (-7)%Z <-> forall b f, name = Some b -> from_utf8 b <> Some f) /\
      (z = (-4)%Z <-> exists b f, name = Some b /\ from_utf8 b = Some f /\ forall k, ~ names_sink w (S_ "file " ++ f) k) /\
      (z = (-6)%Z <-> exists b f p, name = Some b /\ from_utf8 b = Some f /\ names_sink w (S_ "file " ++ f) (KFile p) /\ can_open (clock s) p = false) /\
      (z = 0%Z -> active s = None) /\ (z = (-1)%Z -> exists a, active s = Some a)
  | _ => (active s = None -> z = 0%Z) /\ (forall a, active s = Some a -> z = (-1)%Z)
  end.
Proof.
  assert (RF : forall s z, z = refused s -> (active s = None -> z = 0%Z) /\ (forall a, active s = Some a -> z = (-1)%Z)).
  { intros s z ->. unfold refused. split; [intros ->; reflexivity|intros a ->; reflexivity]. }
  intros s c s' r rs ST AP. destruct c; try destruct AP; cbn [Logging.step] in ST.
  - unfold logger_apply in ST. destruct (make_writers _ _ _ _) as [ws|]; [|discriminate]. injection ST as _ <- <-. eexists. split; [reflexivity|]. split; [reflexivity|]. now apply RF.
  - destruct (log_to _ _ s t _ level) as [[s1 z]|] eqn:A; [|discriminate]. injection ST as _ <- <-. exists z. split; [reflexivity|]. split; [reflexivity|]. apply word_code in A; [|cbn; auto]. now apply RF.
  - destruct (log_to _ _ s t _ level) as [[s1 z]|] eqn:A; [|discriminate]. injection ST as _ <- <-. exists z. split; [reflexivity|]. split; [reflexivity|]. apply word_code in A; [|cbn; auto]. now apply RF.
  - destruct (log_to _ _ s t _ level) as [[s1 z]|] eqn:A; [|discriminate]. injection ST as _ <- <-. exists z. split; [reflexivity|]. split; [reflexivity|]. apply word_code in A; [|cbn; auto]. now apply RF.
  - assert (BAD : (forall b f, name = Some b -> from_utf8 b <> Some f) -> coded (Some (logger_init s t, (-7)%Z)) = Some (s', r, rs) -> exists z, r = RCode z /\ rs = [] /\
      In z [0; -1; -4; -6; -7]%Z /\ (z = (-7)%Z <-> forall b f, name = Some b -> from_utf8 b <> Some f) /\
      (z = (-4)%Z <-> exists b f, name = Some b /\ from_utf8 b = Some f /\ forall k, ~ names_sink w (S_ "file " ++ f) k) /\
      (z = (-6)%Z <-> exists b f p, name = Some b /\ from_utf8 b = Some f /\ names_sink w (S_ "file " ++ f) (KFile p) /\ can_open (clock s) p = false) /\
      (z = 0%Z -> active s = None) /\ (z = (-1)%Z -> exists a, active s = Some a)).
    { intros NB E. injection E as _ <- <-. exists (-7)%Z. split; [reflexivity|]. split; [reflexivity|]. split; [cbn; tauto|]. split; [split; auto|].
      split; [split; [discriminate|intros (b & f & E & U & _); now apply (NB b f) in E]|]. split; [split; [discriminate|intros (b & f & p & E & U & _); now apply (NB b f) in E]|]. split; discriminate. }
    destruct name as [b|]; [|apply BAD; [discriminate|exact ST]]. destruct (from_utf8 b) as [f|] eqn:FB; [|apply BAD; [intros b' f E; injection E as <-; congruence|exact ST]]. clear BAD.
    destruct (log_to _ _ s t _ level) as [[s1 z]|] eqn:A; [|discriminate]. injection ST as _ <- <-. exists z. split; [reflexivity|]. split; [reflexivity|].
    assert (N7 : z <> (-7)%Z -> (z = (-7)%Z <-> forall b' f', Some b = Some b' -> from_utf8 b' <> Some f')).
    { intro NZ. split; [congruence|]. intro X. exfalso. now apply (X b f). }
    assert (N4 : (exists b' f', Some b = Some b' /\ from_utf8 b' = Some f' /\ forall k, ~ names_sink w (S_ "file " ++ f') k) <-> forall k, ~ names_sink w (S_ "file " ++ f) k).
    { split; [intros (b' & f' & E & U & X); injection E as <-; rewrite FB in U; injection U as <-; exact X|intro X; eauto]. }
    assert (N6 : (exists b' f' p, Some b = Some b' /\ from_utf8 b' = Some f' /\ names_sink w (S_ "file " ++ f') (KFile p) /\ can_open (clock s) p = false) <->
      exists p, names_sink w (S_ "file " ++ f) (KFile p) /\ can_open (clock s) p = false).
    { split; [intros (b' & f' & p & E & U & X); injection E as <-; rewrite FB in U; injection U as <-; eauto|intros (p & X); exists b, f, p; auto]. }
    rewrite N4, N6. clear N4 N6. rewrite <- (sink_unknown w can_open (clock s)), <- (sink_no_file w can_open (clock s)).
    unfold log_to, attach_sink in A. rewrite from_utf8_utf8 in A by (rewrite forallb_app; apply andb_true_intro; split; [reflexivity|now apply (from_utf8_inv _ _ FB)]).
    change (clock (logger_init s t)) with (clock s) in A. destruct (sink_of w can_open (clock s) (S_ "file " ++ f)) as [k|z0] eqn:SK.
    + cbn [Z.eqb] in A. unfold logger_apply in A. destruct (make_writers _ _ _ _) as [ws|]; [|discriminate]. injection A as _ <-. cbn [with_pending logger_init tick active].
      destruct (active s) as [a|]; (split; [cbn; auto|]; split; [apply N7; discriminate|]; split; [split; discriminate|]; split; [split; discriminate|]; split; intro X; try discriminate; eauto).
    + destruct (sink_codes _ _ _ _ _ SK) as [->| ->]; cbn [Z.eqb] in A; injection A as _ <-; (split; [cbn; auto|]; split; [apply N7; discriminate|]; split; [split; intro X; congruence|]; split; [split; intro X; congruence|]; split; discriminate).
Qed.
(** A message is logged with the source and the level given, after at most one warning for each argument that is no text; without a text there is none. *)
Theorem C124_message : forall s source level text,
  (forall b t, text = Some b -> from_utf8 b = Some t -> exists warnings n m, message_records render s source level text = warnings ++ [mkRecord None n (render (clock s) m)] /\
    says source level text m n /\ Forall (fun r => r_level r = 2) warnings /\ (length warnings <= 2)%nat) /\
  ((forall b, text = Some b -> from_utf8 b = None) -> Forall (fun r => r_level r = 2) (message_records render s source level text)).
Proof.
  intros s source level text. unfold message_records.
  assert (C1 : forall nm c, Forall (fun r => r_level r = 2) (snd (convert_cstr render s nm c)) /\ (length (snd (convert_cstr render s nm c)) <= 1)%nat).
  { intros nm [b|]; unfold convert_cstr; [destruct (from_utf8 b)|]; cbn; repeat constructor. }
  assert (L1 : Forall (fun r => r_level r = 2) (snd (given_level render s level)) /\ (length (snd (given_level render s level)) <= 1)%nat).
  { unfold given_level. destruct level as [b|]; [|cbn; repeat constructor]. pose proof (C1 "log_level"%string (Some b)) as X. destruct (convert_cstr render s "log_level" (Some b)) as [t rs]. exact X. }
  pose proof (C1 "target"%string source) as [T1 T2].
  assert (TG : match fst (convert_cstr render s "target" source) with Some t => exists c, source = Some c /\ from_utf8 c = Some t | None => source = None \/ exists c, source = Some c /\ from_utf8 c = None end).
  { unfold convert_cstr. destruct source as [b|]; [destruct (from_utf8 b) eqn:U; cbn; eauto|cbn; auto]. }
  destruct (convert_cstr render s "target" source) as [target r1]. cbn [fst snd] in *. split.
  - intros b t -> U. unfold convert_cstr. rewrite U. pose proof (proj1 (C124_level render s level)) as LV. destruct (given_level render s level) as [l r3]. cbn [fst snd] in *. destruct L1 as [L1 L2].
    exists (r1 ++ r3), l, (MClient l (match target with Some t0 => t0 | None => S_ "client" end) t). split; [now rewrite app_assoc|]. split; [|split; [now apply Forall_app|rewrite app_length; lia]].
    exists b, t, (match target with Some t0 => t0 | None => S_ "client" end). split; [reflexivity|]. split; [exact U|]. split; [reflexivity|]. split; [exact LV|]. destruct target; [left; exact TG|right; auto].
  - intro X. destruct text as [b|]; [|now rewrite app_nil_r]. unfold convert_cstr. rewrite (X b eq_refl). cbn. apply Forall_app. split; [exact T1|repeat constructor].
Qed.
Theorem C124_message_step : forall s source level text, exists s', step s (LogMessage source level text) = Some (s', RNone, message_records render s source level text).
Proof. intros s source level text. eexists. reflexivity. Qed.
End Proofs.

(** ** Examples *)
Section Examples.
Definition logs_of (s : string) : list N := utf8 (S_ s).
Definition anywhere : nat -> str -> bool := fun _ _ => true.
Definition ex_render (n : nat) (m : message) : list N := match m with MClient _ _ t => utf8 t ++ [10] | MNullArgument _ => logs_of "null" | MNotUtf8 _ => logs_of "utf8" | MFetchFailed => logs_of "fetch" end.
Definition ex_passes (d : str) (r : record) : bool := false.
Fixpoint doing (can : nat -> str -> bool) (s : logs) (cs : list call) : trace * logs :=
  match cs with
  | [] => ([], s)
  | c :: cs' => match step digits_world can ex_render ex_passes (tick s) c with
                | Some (s', r, rs) => let '(tr, s2) := doing can s' cs' in ((c, r, rs) :: tr, s2)
                | None => ([], s)
                end
  end.
Lemma doing_runs : forall can cs s, runs digits_world can ex_render ex_passes s (fst (doing can s cs)) (snd (doing can s cs)).
Proof.
  intros can. induction cs as [|c cs IH]; intro s; cbn [doing]; [constructor|]. destruct (step digits_world can ex_render ex_passes (tick s) c) as [[[s' r] rs]|] eqn:ST; [|constructor].
  specialize (IH s'). destruct (doing can s' cs) as [tr s2]. now apply runs_one with (s1 := s').
Qed.
Definition replies (x : trace * logs) : list reply := map (fun i => snd (fst i)) (fst x).
(** Two sinks with different levels; the buffer is read twice. *)
Definition two_sinks : list call :=
  [Init 0; Attach 0 (logs_of "  stderr") 2; Attach 0 (logs_of "buffer") 4; Attach 0 (logs_of "file") 4; Apply 0;
   LogMessage (Some (logs_of "go")) (Some (logs_of "Warn")) (Some (logs_of "one")); LogMessage None (Some (logs_of "debug")) (Some (logs_of "two"));
   Fetch None; Fetch None].
Example C124_example : replies (doing anywhere no_logs two_sinks) =
    [RNone; RCode 0; RCode 0; RCode (-4); RCode 0; RNone; RNone; RText (Some (logs_of "one" ++ [10] ++ logs_of "null" ++ logs_of "two" ++ [10])); RText (Some [])] /\
  out (snd (doing anywhere no_logs two_sinks)) TErr = logs_of "one" ++ [10] ++ logs_of "null" /\
  out (snd (doing anywhere no_logs two_sinks)) TOut = [].
Proof. vm_compute. repeat split. Qed.
(** Attaching goes on being answered with 0 after the sinks were applied, but nothing comes of it; a second start is refused. *)
Example C124_example_attach_after_apply :
  replies (doing anywhere no_logs [ToStdout 0 3; Attach 0 (logs_of "buffer") 5; Apply 0; LogMessage None (Some (logs_of "ERROR")) (Some (logs_of "x")); Fetch None]) =
    [RCode 0; RCode 0; RCode (-1); RNone; RText (Some [])].
Proof. reflexivity. Qed.
(** The sinks belong to a thread: applied in another one, the default is used. *)
Example C124_example_other_thread : let x := doing anywhere no_logs [Init 0; Attach 0 (logs_of "buffer") 5; Apply 1; LogMessage (Some (logs_of "a")) None (Some (logs_of "x"))] in
  replies x = [RNone; RCode 0; RCode 0; RNone] /\ out (snd x) (TBuffer (S_ "global")) = [] /\ out (snd x) TOut = logs_of "x" ++ [10].
Proof. vm_compute. repeat split. Qed.
(** A zero in a buffer: the contents are lost, and the next fetch gives the record of that. *)
Example C124_example_lost : replies (doing anywhere no_logs [ToBuffer 0 3; Logged (mkRecord None 1 [104; 0; 105]); Fetch None; Fetch None]) =
  [RCode 0; RNone; RText None; RText (Some (logs_of "fetch"))].
Proof. reflexivity. Qed.
(** A file that cannot be opened the second time: the program ends. *)
Example C124_example_panic : let s := snd (doing anywhere no_logs [Init 0; Attach 0 (logs_of "file log.txt") 3]) in
  step digits_world (fun n _ => Nat.leb n 2) ex_render ex_passes (tick s) (Apply 0) = None.
Proof. reflexivity. Qed.
(** Spaces before the name of a file are kept, those after it are not; a name of nothing but spaces is no sink. *)
Example C124_example_names : names_sink digits_world (S_ " file  a ") (KFile (S_ " a")) /\ (forall k, ~ names_sink digits_world (S_ "file  ") k).
Proof.
  split; [apply (sink_ok digits_world anywhere 0 _ _); reflexivity|]. apply (sink_unknown digits_world anywhere 0). reflexivity.
Qed.
Example C124_example_levels : names_level (S_ "TrAcE") 5 /\ names_level (S_ "+03") 3 /\ names_filter [] 1 /\ names_filter (S_ "none") 0 /\ ~ (exists n, names_level (S_ "off") n).
Proof.
  split; [now apply level_iff|]. split; [now apply level_iff|]. split; [now apply filter_iff|]. split; [now apply filter_iff|]. intros (n & H). apply level_iff in H. discriminate.
Qed.
End Examples.
