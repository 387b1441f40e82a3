(** C31 and C59: concurrent writers of one process; what a crash leaves. *)
From Coq Require Import List Arith NArith Lia Bool.
From Verif Require Import Store SpecStore PropStore.
Import ListNotations.

Lemma in_turn_snoc : forall jobs ts a b t fresh upd c, in_turn jobs ts a b -> jobs t = Merge fresh upd -> upd b = Some c ->
  in_turn jobs (ts ++ [t]) a c.
Proof.
  intros jobs ts a b t fresh upd c H J U. induction H; cbn [app].
  - eapply it_cons; [exact J|exact U|apply it_nil].
  - eapply it_cons; [eassumption|eassumption|]. apply IHin_turn, U.
Qed.

Section OneProcess.
Variable jobs : tid -> job.
Variable proc : tid -> nat.
Variable P : nat.
Variable old : bytes.
Hypothesis MO : merging_only jobs.
Hypothesis OP : one_process jobs proc P.

Definition result (t : tid) (F new : bytes) : Prop := exists fresh upd, jobs t = Merge fresh upd /\ upd F = Some new.
Definition holder_ok (s : sys) (F : bytes) (t : tid) : Prop :=
  match at_ s t with
  | InMutex | AskShared _ | Shared | Leave _ => file s = Some F
  | Read b | Merging b => b = F /\ file s = Some F
  | AskExcl _ new _ tr | Excl new _ tr => tr = true /\ result t F new /\ file s = Some F
  | Truncated new _ => result t F new /\ file s = Some []
  | Writing new pos k => result t F new /\ pos = k /\ k <= length new /\ file s = Some (firstn k new)
  | Idle | Done _ | Got _ => False
  end.
Definition out_ok (p : pc) : Prop := match p with Idle | Done _ => True | _ => False end.
Definition reader_ok (p : pc) : Prop :=
  match p with Idle | AskShared _ | Shared | Read _ | Got _ | Done false => True | _ => False end.
Definition inv (s : sys) (order : list tid) (F : bytes) : Prop :=
  NoDup order /\
  (forall t, In t order <-> (at_ s t = Done true \/ at_ s t = Leave true)) /\
  in_turn jobs order old F /\
  (forall t, jobs t = Reader -> reader_ok (at_ s t)) /\
  match mutex s P with
  | Some h => jobs h <> Reader /\ holder_ok s F h /\ (forall t, jobs t <> Reader -> t <> h -> out_ok (at_ s t))
  | None => file s = Some F /\ (forall t, jobs t <> Reader -> out_ok (at_ s t))
  end.

Lemma reader_true : forall j, is_reader j = true <-> j = Reader.
Proof. intros [ | | ]; cbn; split; congruence. Qed.
Lemma reader_false : forall j, is_reader j = false <-> j <> Reader.
Proof. intros [ | | ]; cbn; split; congruence. Qed.

(** A step of a reader. *)
Lemma inv_reader : forall s t p s' order F, inv s order F -> jobs t = Reader -> reader_ok p ->
  file s' = file s -> mutex s' = mutex s -> at_ s' = set (at_ s) t p -> inv s' order F.
Proof.
  intros s t p s' order F [ND [O [IT [R M]]]] Jt Rp Ef Em Ea. unfold inv. rewrite Em.
  assert (NP : p <> Done true /\ p <> Leave true) by (destruct p as [| | | | | | | | | | |[|]|]; cbn in Rp; split; try congruence; contradiction).
  assert (NA : at_ s t <> Done true /\ at_ s t <> Leave true).
  { specialize (R t Jt). destruct (at_ s t) as [| | | | | | | | | | |[|]|]; cbn in R; split; try congruence; contradiction. }
  split; [exact ND|]. split; [|split; [exact IT|split]].
  - intro u. rewrite O, Ea. destruct (Nat.eq_dec u t) as [->|N]; [rewrite set_same; tauto|rewrite set_other by exact N; tauto].
  - intros u Ju. rewrite Ea. destruct (Nat.eq_dec u t) as [->|N]; [rewrite set_same; exact Rp|rewrite set_other by exact N; apply R, Ju].
  - destruct (mutex s P) as [h|].
    + destruct M as [Jh [H Out]]. split; [exact Jh|].
      assert (N : h <> t) by congruence. split.
      * unfold holder_ok in *. rewrite Ea, set_other by exact N. rewrite Ef. exact H.
      * intros u Ju Nu. rewrite Ea. rewrite set_other by congruence. apply Out; assumption.
    + destruct M as [Fs Out]. split; [rewrite Ef; exact Fs|]. intros u Ju. rewrite Ea. rewrite set_other by congruence. apply Out, Ju.
Qed.

(** A step of the writer that has the mutex and does not finish its work. *)
Lemma inv_writer : forall s t p s' order F, inv s order F -> jobs t <> Reader -> mutex s P = Some t ->
  mutex s' = mutex s -> at_ s' = set (at_ s) t p ->
  at_ s t <> Leave true -> p <> Done true -> p <> Leave true ->
  holder_ok s' F t -> inv s' order F.
Proof.
  intros s t p s' order F [ND [O [IT [R M]]]] Jt Mx Em Ea NL ND' NL' H'. unfold inv. rewrite Em, Mx in *.
  destruct M as [Jh [H Out]].
  assert (NA : at_ s t <> Done true). { intro X. unfold holder_ok in H. rewrite X in H. exact H. }
  split; [exact ND|]. split; [|split; [exact IT|split]].
  - intro u. rewrite O, Ea. destruct (Nat.eq_dec u t) as [->|N]; [rewrite set_same; tauto|rewrite set_other by exact N; tauto].
  - intros u Ju. rewrite Ea. rewrite set_other by congruence. apply R, Ju.
  - split; [exact Jh|]. split; [exact H'|]. intros u Ju Nu. rewrite Ea, set_other by exact Nu. apply Out; assumption.
Qed.

Lemma writer_holds : forall s t order F, inv s order F -> jobs t <> Reader -> ~ out_ok (at_ s t) -> mutex s P = Some t /\ holder_ok s F t.
Proof.
  intros s t order F [_ [_ [_ [_ M]]]] Jt NO. destruct (mutex s P) as [h|].
  - destruct M as [_ [H Out]]. destruct (Nat.eq_dec t h) as [->|N]; [split; [reflexivity|exact H]|].
    destruct (NO (Out t Jt N)).
  - destruct M as [_ Out]. destruct (NO (Out t Jt)).
Qed.

Lemma inv_step : forall s t s' order F, step jobs proc s t s' -> inv s order F -> exists order' F', inv s' order' F'.
Proof.
  intros s t s' order F St I. pose proof I as [ND [O [IT [R M]]]].
  assert (Dec : jobs t = Reader \/ jobs t <> Reader) by (destruct (jobs t); [right|right|left]; congruence).
  destruct Dec as [Jt|Jt].
  - (* a reader *)
    assert (Rt := R t Jt). assert (IR := proj2 (reader_true (jobs t)) Jt).
    inversion St; subst; clear St; rewrite H in Rt; cbn [reader_ok] in Rt; try contradiction; try congruence;
      exists order, F.
    + eapply inv_reader; [exact I|exact Jt| |reflexivity|reflexivity|reflexivity]. exact Logic.I.
    + eapply inv_reader; [exact I|exact Jt| |reflexivity|reflexivity|reflexivity]. exact Logic.I.
    + eapply (inv_reader s t Shared); [exact I|exact Jt|exact Logic.I|reflexivity|reflexivity|reflexivity].
    + eapply inv_reader; [exact I|exact Jt| |reflexivity|reflexivity|reflexivity]. exact Logic.I.
    + rewrite IR. eapply inv_reader; [exact I|exact Jt| |reflexivity|reflexivity|reflexivity]. exact Logic.I.
    + eapply inv_reader; [exact I|exact Jt| |reflexivity|reflexivity|reflexivity]. exact Logic.I.
    + rewrite IR. eapply (inv_reader s t (Got b)); [exact I|exact Jt|exact Logic.I|reflexivity|reflexivity|reflexivity].
  - (* a writer *)
    assert (IR := proj2 (reader_false (jobs t)) Jt).
    assert (Pt : proc t = P) by (destruct (OP t); congruence).
    inversion St; subst; clear St; try congruence.
    + (* s_lock *)
      exists order, F. rewrite Pt in *. rewrite H1 in M. destruct M as [Fs Out].
      unfold inv, with_mutex, move. cbn [at_ mutex file]. rewrite set_same.
      split; [exact ND|]. split; [|split; [exact IT|split]].
      * intro u. rewrite O. destruct (Nat.eq_dec u t) as [->|N]; [rewrite set_same, H; split; intros [X|X]; discriminate|rewrite set_other by exact N; tauto].
      * intros u Ju. rewrite set_other by congruence. apply R, Ju.
      * split; [exact Jt|]. split.
        -- unfold holder_ok. cbn [at_ file]. rewrite set_same. exact Fs.
        -- intros u Ju Nu. rewrite set_other by exact Nu. apply Out, Ju.
    + (* s_exists *)
      destruct (writer_holds s t order F I Jt) as [Mx Ho]; [rewrite H; cbn; tauto|].
      exists order, F. eapply (inv_writer s t (AskShared 3)); try eassumption; try reflexivity; try congruence.
      unfold holder_ok in *. cbn [move at_ file]. rewrite set_same. rewrite H in Ho. exact Ho.
    + (* s_create *)
      destruct (writer_holds s t order F I Jt) as [Mx Ho]; [rewrite H; cbn; tauto|].
      unfold holder_ok in Ho. rewrite H in Ho. congruence.
    + (* s_overwrite *) destruct (MO t) as [X|[f [u X]]]; congruence.
    + (* s_shared *)
      destruct (writer_holds s t order F I Jt) as [Mx Ho]; [rewrite H; cbn; tauto|].
      exists order, F. eapply (inv_writer s t Shared); try eassumption; try reflexivity; try congruence.
      unfold holder_ok in *. cbn [with_shared move at_ file]. rewrite set_same. rewrite H in Ho. exact Ho.
    + destruct (writer_holds s t order F I Jt) as [Mx Ho]; [rewrite H; cbn; tauto|].
      exists order, F. eapply (inv_writer s t (AskShared n)); try eassumption; try reflexivity; try congruence.
      unfold holder_ok in *. cbn [move at_ file]. rewrite set_same. rewrite H in Ho. exact Ho.
    + (* s_shared_fail *)
      rewrite IR. destruct (writer_holds s t order F I Jt) as [Mx Ho]; [rewrite H; cbn; tauto|].
      exists order, F. eapply (inv_writer s t (Leave false)); try eassumption; try reflexivity; try congruence.
      unfold holder_ok in *. cbn [move at_ file]. rewrite set_same. rewrite H in Ho. exact Ho.
    + (* s_read *)
      destruct (writer_holds s t order F I Jt) as [Mx Ho]; [rewrite H; cbn; tauto|].
      exists order, F. eapply (inv_writer s t (Read b)); try eassumption; try reflexivity; try congruence.
      unfold holder_ok in *. cbn [move at_ file]. rewrite set_same. rewrite H in Ho. split; [congruence|exact Ho].
    + (* s_unshare *)
      rewrite IR. destruct (writer_holds s t order F I Jt) as [Mx Ho]; [rewrite H; cbn; tauto|].
      exists order, F. eapply (inv_writer s t (Merging b)); try eassumption; try reflexivity; try congruence.
      unfold holder_ok in *. cbn [with_shared move at_ file]. rewrite set_same. rewrite H in Ho. exact Ho.
    + (* s_merge *)
      destruct (writer_holds s t order F I Jt) as [Mx Ho]; [rewrite H; cbn; tauto|].
      exists order, F. eapply (inv_writer s t (AskExcl 3 new (length b) true)); try eassumption; try reflexivity; try congruence.
      unfold holder_ok in *. cbn [move at_ file]. rewrite set_same. rewrite H in Ho. destruct Ho as [-> Fs].
      split; [reflexivity|]. split; [exists fresh, upd; split; assumption|exact Fs].
    + destruct (writer_holds s t order F I Jt) as [Mx Ho]; [rewrite H; cbn; tauto|].
      exists order, F. eapply (inv_writer s t (Leave false)); try eassumption; try reflexivity; try congruence.
      unfold holder_ok in *. cbn [move at_ file]. rewrite set_same. rewrite H in Ho. exact (proj2 Ho).
    + (* s_excl *)
      destruct (writer_holds s t order F I Jt) as [Mx Ho]; [rewrite H; cbn; tauto|].
      exists order, F. eapply (inv_writer s t (Excl new pos tr)); try eassumption; try reflexivity; try congruence.
      unfold holder_ok in *. cbn [with_excl move at_ file]. rewrite set_same. rewrite H in Ho. exact Ho.
    + destruct (writer_holds s t order F I Jt) as [Mx Ho]; [rewrite H; cbn; tauto|].
      exists order, F. eapply (inv_writer s t (AskExcl n new pos tr)); try eassumption; try reflexivity; try congruence.
      unfold holder_ok in *. cbn [move at_ file]. rewrite set_same. rewrite H in Ho. exact Ho.
    + destruct (writer_holds s t order F I Jt) as [Mx Ho]; [rewrite H; cbn; tauto|].
      exists order, F. eapply (inv_writer s t (Leave false)); try eassumption; try reflexivity; try congruence.
      unfold holder_ok in *. cbn [move at_ file]. rewrite set_same. rewrite H in Ho. apply Ho.
    + (* s_truncate *)
      destruct (writer_holds s t order F I Jt) as [Mx Ho]; [rewrite H; cbn; tauto|].
      exists order, F. eapply (inv_writer s t (Truncated new pos)); try eassumption; try reflexivity; try congruence.
      unfold holder_ok in *. cbn [with_file move at_ file]. rewrite set_same. rewrite H in Ho. split; [apply Ho|reflexivity].
    + (* s_no_truncate *)
      destruct (writer_holds s t order F I Jt) as [Mx Ho]; [rewrite H; cbn; tauto|].
      unfold holder_ok in Ho. rewrite H in Ho. destruct Ho as [X _]. discriminate X.
    + (* s_seek *)
      destruct (writer_holds s t order F I Jt) as [Mx Ho]; [rewrite H; cbn; tauto|].
      exists order, F. eapply (inv_writer s t (Writing new 0 0)); try eassumption; try reflexivity; try congruence.
      unfold holder_ok in *. cbn [move at_ file]. rewrite set_same. rewrite H in Ho. destruct Ho as [Re Fs].
      split; [exact Re|]. split; [reflexivity|]. split; [lia|]. exact Fs.
    + (* s_write *)
      destruct (writer_holds s t order F I Jt) as [Mx Ho]; [rewrite H; cbn; tauto|].
      exists order, F. eapply (inv_writer s t (Writing new (pos + c) (k + c))); try eassumption; try reflexivity; try congruence.
      unfold holder_ok in *. cbn [with_file move at_ file]. rewrite set_same. rewrite H in Ho.
      destruct Ho as [Re [-> [Lk Fs]]]. rewrite Fs in H2. injection H2 as <-. rewrite write_at_next by exact H1.
      split; [exact Re|]. split; [reflexivity|]. split; [exact H1|reflexivity].
    + (* s_unexcl: the write is complete *)
      destruct (writer_holds s t order F I Jt) as [Mx Ho]; [rewrite H; cbn; tauto|].
      unfold holder_ok in Ho. rewrite H in Ho. destruct Ho as [[fresh [upd [Ju Up]]] [_ [_ Fs]]].
      rewrite firstn_all in Fs.
      exists (order ++ [t]), new. rewrite Mx in M. destruct M as [_ [_ Out]].
      assert (NI : ~ In t order) by (rewrite O, H; intros [X|X]; discriminate).
      unfold inv, with_excl, move. cbn [at_ mutex file]. rewrite Mx.
      split; [|split; [|split; [|split]]].
      * clear -ND NI. induction order as [|a l IH]; cbn [app]; [constructor; [intros []|constructor]|].
        inversion ND; subst. constructor.
        -- intro X. apply in_app_or in X. destruct X as [X|[->|[]]]; [contradiction|]. apply NI. left. reflexivity.
        -- apply IH; [assumption|]. intro X. apply NI. right. exact X.
      * intro u. rewrite in_app_iff. destruct (Nat.eq_dec u t) as [->|N].
        -- rewrite set_same. cbn [In]. tauto.
        -- rewrite set_other by exact N. rewrite <- O. cbn [In]. split; [intros [X|[X|[]]]; [exact X|congruence]|tauto].
      * eapply in_turn_snoc; eassumption.
      * intros u Jr. rewrite set_other by congruence. apply R, Jr.
      * split; [exact Jt|]. split.
        -- unfold holder_ok. cbn [at_ file]. rewrite set_same. exact Fs.
        -- intros u Jr Nu. rewrite set_other by exact Nu. apply Out; assumption.
    + (* s_leave *)
      destruct (writer_holds s t order F I Jt) as [Mx Ho]; [rewrite H; cbn; tauto|].
      unfold holder_ok in Ho. rewrite H in Ho. rewrite Mx in M. destruct M as [_ [_ Out]].
      exists order, F. rewrite Pt. unfold inv, with_mutex, move. cbn [at_ mutex file]. rewrite set_same.
      split; [exact ND|]. split; [|split; [exact IT|split]].
      * intro u. rewrite O. destruct (Nat.eq_dec u t) as [->|N].
        -- rewrite set_same, H. destruct ok; intuition congruence.
        -- rewrite set_other by exact N. tauto.
      * intros u Jr. rewrite set_other by congruence. apply R, Jr.
      * split; [exact Ho|]. intros u Jr. destruct (Nat.eq_dec u t) as [->|N].
        -- rewrite set_same. exact Logic.I.
        -- rewrite set_other by exact N. apply Out; assumption.
Qed.

Lemma inv_reachable : forall s, reachable jobs proc (start (Some old)) s -> exists order F, inv s order F.
Proof.
  intros s R. induction R as [|s t s' R IH St].
  - exists [], old. split; [constructor|]. split; [intro t; cbn; intuition congruence|].
    split; [apply it_nil|]. split; [intros; exact Logic.I|]. cbn. split; [reflexivity|]. intros; exact Logic.I.
  - destruct IH as [order [F I]]. exact (inv_step s t s' order F St I).
Qed.
End OneProcess.

(** While any number of threads of one process merge pacts into the file, and any number of
    readers anywhere read it, in any schedule: when no write is going on, the file holds what
    the threads that reported success write when they take turns in some order, each once,
    and nothing of the others. *)
Theorem C59_threads_take_turns : forall jobs proc p old s,
  merging_only jobs -> one_process jobs proc p -> reachable jobs proc (start (Some old)) s -> mutex s p = None ->
  exists order text, NoDup order /\ (forall t, In t order <-> at_ s t = Done true) /\
    in_turn jobs order old text /\ file s = Some text.
Proof.
  intros jobs proc p old s MO OP R Mx.
  destruct (inv_reachable jobs proc p old MO OP s R) as [order [F [ND [O [IT [RR M]]]]]].
  rewrite Mx in M. destruct M as [Fs Out]. exists order, F. split; [exact ND|]. split; [|split; [exact IT|exact Fs]].
  intro t. rewrite O. split; [|tauto]. intros [X|X]; [exact X|].
  destruct (jobs t) eqn:J.
  - assert (Y := Out t). rewrite X in Y. cbn in Y. destruct Y. congruence.
  - assert (Y := Out t). rewrite X in Y. cbn in Y. destruct Y. congruence.
  - assert (Y := RR t J). rewrite X in Y. destruct Y.
Qed.

(** At every moment, so also if the process dies at that moment, the file holds either what
    the writes completed so far make, or the first bytes of the text of the write that was
    going on. *)
Theorem C31_what_a_crash_leaves : forall jobs proc p old s,
  merging_only jobs -> one_process jobs proc p -> reachable jobs proc (start (Some old)) s ->
  exists order text, in_turn jobs order old text /\
    (file s = Some text \/
     exists t fresh upd new k, jobs t = Merge fresh upd /\ upd text = Some new /\ file s = Some (firstn k new)).
Proof.
  intros jobs proc p old s MO OP R.
  destruct (inv_reachable jobs proc p old MO OP s R) as [order [F [ND [O [IT [RR M]]]]]].
  exists order, F. split; [exact IT|]. destruct (mutex s p) as [h|]; [|left; apply M].
  destruct M as [_ [H _]]. unfold holder_ok in H. destruct (at_ s h); try contradiction; try (left; exact H);
    try (left; apply H).
  - right. destruct H as [[fresh [upd [J U]]] Fs]. exists h, fresh, upd, new, 0. split; [exact J|]. split; [exact U|exact Fs].
  - right. destruct H as [[fresh [upd [J U]]] [_ [_ Fs]]]. exists h, fresh, upd, new, k. split; [exact J|]. split; [exact U|exact Fs].
Qed.

(** If the pact cannot be merged, or the file not be parsed, the file is never touched. *)
Theorem C31_failed_merge_leaves_the_file : forall jobs proc p old s,
  merging_only jobs -> one_process jobs proc p ->
  (forall t fresh upd, jobs t = Merge fresh upd -> upd old = None) ->
  reachable jobs proc (start (Some old)) s -> file s = Some old.
Proof.
  intros jobs proc p old s MO OP Fail R.
  assert (NI : forall order text, in_turn jobs order old text -> text = old).
  { intros order text H. destruct H as [|t fresh upd ts b b' c J U H]; [reflexivity|].
    rewrite (Fail t fresh upd J) in U. discriminate. }
  destruct (C31_what_a_crash_leaves jobs proc p old s MO OP R) as [order [text [IT [H|[t [fresh [upd [new [k [J [U _]]]]]]]]]]].
  - rewrite (NI order text IT) in H. exact H.
  - rewrite (NI order text IT) in U. rewrite (Fail t fresh upd J) in U. discriminate.
Qed.

(** One writer. *)
Definition one_writer (upd : bytes -> option bytes) : tid -> job := fun t => if Nat.eqb t 0 then Merge [] upd else Reader.
Definition all_in (p : nat) : tid -> nat := fun _ => p.

(** ... and every one of these contents can be left: for every old and new text and every
    number of bytes there is a moment at which the file holds just these first bytes. So
    updating a pact file is not atomic: after a crash it can be empty or cut short. *)
Theorem C31_every_prefix_can_be_left : forall upd old new k,
  upd old = Some new -> k <= length new ->
  exists s, reachable (one_writer upd) (all_in 0) (start (Some old)) s /\ file s = Some (firstn k new).
Proof.
  intros upd old new k U Lk.
  assert (W0 : exists s, reachable (one_writer upd) (all_in 0) (start (Some old)) s /\ at_ s 0 = Writing new 0 0 /\ file s = Some []).
  { eexists. split; [|split].
    - go 0. go 0. go 0. go 0. go 0. go 0. go 0. go 0. go 0. apply r_start.
    - reflexivity.
    - reflexivity. }
  destruct W0 as [s [R [A Fs]]]. destruct k as [|k].
  - exists s. split; [exact R|exact Fs].
  - eexists. split.
    + eapply r_step; [exact R|]. eapply (s_write _ _ s 0 new 0 0 (S k) []); [exact A|lia|lia|exact Fs].
    + cbn [with_file file]. f_equal. change (write_at (firstn 0 new) 0 (firstn (S k) (skipn 0 new)) = firstn (S k) new).
      rewrite write_at_next by lia. reflexivity.
Qed.

(** ** What the conditions are for *)
(** Texts of the examples: any two texts and the merges that make them. *)
Definition jobs2 (a b : job) : tid -> job := fun t => if Nat.eqb t 0 then a else if Nat.eqb t 1 then b else Reader.
Definition own_process : tid -> nat := fun t => t.

Lemma write_whole : forall jobs proc s t new f, new <> [] -> at_ s t = Writing new 0 0 -> file s = Some f -> f = [] ->
  step jobs proc s t (with_file (move s t (Writing new (length new) (length new))) new).
Proof.
  intros jobs proc s t new f NE A Fs ->.
  assert (E : write_at [] 0 (firstn (length new) (skipn 0 new)) = new).
  { change (write_at (firstn 0 new) 0 (firstn (length new) (skipn 0 new)) = new).
    rewrite write_at_next by lia. cbn [plus]. apply firstn_all. }
  assert (L : length new > 0) by (destruct new; [congruence|cbn; lia]).
  pose proof (s_write jobs proc s t new 0 0 (length new) [] A L (le_n _) Fs) as X. rewrite E in X. exact X.
Qed.

(** A reader sees nothing at all of a file that is being overwritten: the file is emptied
    before the lock is asked for. *)
Theorem C58_why_no_overwriting : forall old text,
  exists s, reachable (jobs2 (Overwrite text) Reader) own_process (start (Some old)) s /\ at_ s 1 = Got [].
Proof.
  intros old text. eexists. split.
  - go 1. go 0. go 0. go 1. go 1. go 1. apply r_start.
  - reflexivity.
Qed.
(** Overwriting can fail for want of the lock, and has emptied the file by then. *)
Theorem C31_failed_overwrite_empties_the_file : forall old text,
  exists s, reachable (jobs2 (Overwrite text) Reader) own_process (start (Some old)) s /\
    at_ s 0 = Done false /\ file s = Some [].
Proof.
  intros old text. eexists. split; [|split].
  - go 1. go 1. go 0. go 0.
    eapply (reach_step _ _ _ 0); [eapply s_excl_busy; [reflexivity|right; discriminate]|].
    eapply (reach_step _ _ _ 0); [eapply s_excl_busy; [reflexivity|right; discriminate]|].
    eapply (reach_step _ _ _ 0); [eapply s_excl_busy; [reflexivity|right; discriminate]|].
    eapply (reach_step _ _ _ 0); [eapply s_excl_fail; reflexivity|]. go 0. apply r_start.
  - reflexivity.
  - reflexivity.
Qed.
(** Writers in different processes can both succeed although the pact of one is lost: the
    lock on the file is released between reading and writing. *)
Theorem C59_why_one_process : forall old f0 f1 upd0 upd1 a b,
  upd0 old = Some a -> upd1 old = Some b -> a <> [] -> b <> [] ->
  exists s, reachable (jobs2 (Merge f0 upd0) (Merge f1 upd1)) own_process (start (Some old)) s /\
    at_ s 0 = Done true /\ at_ s 1 = Done true /\ file s = Some b.
Proof.
  intros old f0 f1 upd0 upd1 a b U0 U1 Na Nb. eexists. split; [|split; [|split]].
  - go 0. go 0. go 0. go 0. go 0. go 1. go 1. go 1. go 1. go 1.
    eapply (reach_step _ _ _ 0); [eapply s_merge; [reflexivity|reflexivity|exact U0]|].
    eapply (reach_step _ _ _ 1); [eapply s_merge; [reflexivity|reflexivity|exact U1]|].
    go 0. go 0. go 0.
    eapply (reach_step _ _ _ 0); [eapply (write_whole _ _ _ 0 a []); [exact Na|reflexivity|reflexivity|reflexivity]|].
    eapply (reach_step _ _ _ 0); [eapply s_unexcl; reflexivity|]. go 0.
    go 1. go 1. go 1.
    eapply (reach_step _ _ _ 1); [eapply (write_whole _ _ _ 1 b []); [exact Nb|reflexivity|reflexivity|reflexivity]|].
    eapply (reach_step _ _ _ 1); [eapply s_unexcl; reflexivity|]. go 1. apply r_start.
  - reflexivity.
  - reflexivity.
  - reflexivity.
Qed.

(** The hypotheses of the theorems are met: two threads of one process that append to the
    file, and a reader that reads in between. *)
Definition append (x : bytes) : job := Merge x (fun b => Some (b ++ x)).
Definition ex_jobs : tid -> job := jobs2 (append [1%N; 2%N]) (append [3%N]).
Example C59_example : merging_only ex_jobs /\ one_process ex_jobs (all_in 7) 7 /\
  exists s, reachable ex_jobs (all_in 7) (start (Some [0%N])) s /\ mutex s 7 = None /\ at_ s 0 = Done true /\ at_ s 1 = Done true /\ at_ s 2 = Got [0%N] /\
    file s = Some [0%N; 1%N; 2%N; 3%N].
Proof.
  split; [|split].
  - intro t. unfold ex_jobs, jobs2. destruct (Nat.eqb t 0); [right; eexists; eexists; reflexivity|].
    destruct (Nat.eqb t 1); [right; eexists; eexists; reflexivity|left; reflexivity].
  - intro t. right. reflexivity.
  - eexists. split; [|split; [|split; [|split; [|split]]]].
    + go 0. go 0. go 0. go 2. go 2. go 0. go 0. go 0. eapply (reach_step _ _ _ 0); [eapply s_excl_busy; [reflexivity|right; discriminate]|].
      (* the reader holds its lock while the first writer tries to write *)
      eapply (reach_step _ _ _ 2); [eapply s_read; reflexivity|].
      eapply (reach_step _ _ _ 2); [eapply s_unshare; reflexivity|].
      go 0. go 0. go 0.
      eapply (reach_step _ _ _ 0); [eapply (write_whole _ _ _ 0 _ []); [|reflexivity|reflexivity|reflexivity]; discriminate|].
      eapply (reach_step _ _ _ 0); [eapply s_unexcl; reflexivity|]. go 0.
      go 1. go 1. go 1. go 1. go 1. go 1. go 1. go 1. go 1.
      eapply (reach_step _ _ _ 1); [eapply (write_whole _ _ _ 1 _ []); [|reflexivity|reflexivity|reflexivity]; discriminate|].
      eapply (reach_step _ _ _ 1); [eapply s_unexcl; reflexivity|]. go 1. apply r_start.
    + reflexivity.
    + reflexivity.
    + reflexivity.
    + reflexivity.
    + reflexivity.
Qed.
