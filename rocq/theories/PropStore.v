(** C31, C58, C59: crashes, readers and concurrent writers of a pact file. *)
From Coq Require Import List Arith NArith Lia Bool.
From Verif Require Import Store SpecStore.
Import ListNotations.

Lemma set_same : forall A (f : nat -> A) i v, set f i v i = v.
Proof. intros. unfold set. rewrite Nat.eqb_refl. reflexivity. Qed.
Lemma set_other : forall A (f : nat -> A) i v j, j <> i -> set f i v j = f j.
Proof. intros A f i v j H. unfold set. apply Nat.eqb_neq in H. rewrite H. reflexivity. Qed.

Lemma firstn_plus : forall A (l : list A) k c, firstn (k + c) l = firstn k l ++ firstn c (skipn k l).
Proof. intros A l; induction l as [|a l IH]; intros [|k] c; cbn; try reflexivity.
  - destruct c; reflexivity.
  - f_equal. apply IH.
Qed.
Lemma write_at_next : forall new k c, k + c <= length new ->
  write_at (firstn k new) k (firstn c (skipn k new)) = firstn (k + c) new.
Proof.
  intros new k c H. unfold write_at.
  assert (L : length (firstn k new) = k) by (rewrite firstn_length; lia).
  rewrite L. rewrite Nat.sub_diag. cbn [repeat]. rewrite app_nil_r.
  rewrite (firstn_all2 (n := k) (firstn k new)) by lia.
  rewrite (skipn_all2 (firstn k new)) by (rewrite L; lia). rewrite app_nil_r.
  symmetry. apply firstn_plus.
Qed.

(** ** Locks *)
Definition holds_excl (p : pc) : bool := match p with Excl _ _ _ | Truncated _ _ | Writing _ _ _ => true | _ => false end.
Definition holds_shared (p : pc) : bool := match p with Shared | Read _ => true | _ => false end.
Definition locks (s : sys) : Prop :=
  (forall t, holds_excl (at_ s t) = true <-> excl s = Some t) /\
  (forall t, holds_shared (at_ s t) = true <-> In t (shared s)) /\
  (excl s <> None -> shared s = []).

Section Sys.
Variable jobs : tid -> job.
Variable proc : tid -> nat.

Lemma drop_in : forall t u l, In u (drop_tid t l) <-> In u l /\ u <> t.
Proof.
  intros t u l. unfold drop_tid. rewrite filter_In. rewrite negb_true_iff, Nat.eqb_neq. tauto.
Qed.

Lemma locks_plain : forall s t p, locks s -> holds_excl p = holds_excl (at_ s t) -> holds_shared p = holds_shared (at_ s t) ->
  locks (move s t p).
Proof.
  intros s t p [L1 [L2 L3]] E S0. unfold locks, move. cbn [at_ excl shared]. split; [|split].
  - intro u. destruct (Nat.eq_dec u t) as [->|N]; [rewrite set_same, E; apply L1|rewrite set_other by exact N; apply L1].
  - intro u. destruct (Nat.eq_dec u t) as [->|N]; [rewrite set_same, S0; apply L2|rewrite set_other by exact N; apply L2].
  - exact L3.
Qed.
Lemma locks_file : forall s f, locks s -> locks (with_file s f).
Proof. intros s f H. exact H. Qed.
Lemma locks_mutex : forall s p e, locks s -> locks (with_mutex s p e).
Proof. intros s p e H. exact H. Qed.

Lemma locks_step : forall s t s', step jobs proc s t s' -> locks s -> locks s'.
Proof.
  intros s t s' St L. pose proof L as [L1 [L2 L3]].
  inversion St; subst; clear St;
    try (try apply locks_mutex; try apply locks_file; apply locks_plain; [exact L|rewrite H; try reflexivity|rewrite H; try reflexivity];
         destruct (is_reader (jobs t)); reflexivity).
  - (* s_shared *)
    unfold locks, with_shared, move. cbn [at_ excl shared]. split; [|split].
    + intro u. destruct (Nat.eq_dec u t) as [->|N].
      * rewrite set_same. cbn. rewrite H0. split; discriminate.
      * rewrite set_other by exact N. apply L1.
    + intro u. destruct (Nat.eq_dec u t) as [->|N].
      * rewrite set_same. cbn. tauto.
      * rewrite set_other by exact N. rewrite L2. cbn. split; [tauto|intros [X|X]; [congruence|exact X]].
    + intro X. congruence.
  - (* s_unshare *)
    assert (E : holds_excl (if is_reader (jobs t) then Got b else Merging b) = false) by (destruct (is_reader (jobs t)); reflexivity).
    assert (S0 : holds_shared (if is_reader (jobs t) then Got b else Merging b) = false) by (destruct (is_reader (jobs t)); reflexivity).
    unfold locks, with_shared, move. cbn [at_ excl shared]. split; [|split].
    + intro u. destruct (Nat.eq_dec u t) as [->|N].
      * rewrite set_same, E. rewrite <- L1, H. split; discriminate.
      * rewrite set_other by exact N. apply L1.
    + intro u. rewrite drop_in. destruct (Nat.eq_dec u t) as [->|N].
      * rewrite set_same, S0. split; [discriminate|tauto].
      * rewrite set_other by exact N. rewrite L2. tauto.
    + intro X. rewrite (L3 X). reflexivity.
  - (* s_excl *)
    unfold locks, with_excl, move. cbn [at_ excl shared]. split; [|split].
    + intro u. destruct (Nat.eq_dec u t) as [->|N].
      * rewrite set_same. cbn. tauto.
      * rewrite set_other by exact N. split; [intro X; apply L1 in X; congruence|intro X; congruence].
    + intro u. destruct (Nat.eq_dec u t) as [->|N].
      * rewrite set_same. cbn. rewrite H1. split; [discriminate|intros []].
      * rewrite set_other by exact N. apply L2.
    + intros _. exact H1.
  - (* s_unexcl *)
    unfold locks, with_excl, move. cbn [at_ excl shared]. split; [|split].
    + intro u. destruct (Nat.eq_dec u t) as [->|N].
      * rewrite set_same. cbn. split; discriminate.
      * rewrite set_other by exact N. split; [|discriminate]. intro X. apply L1 in X.
        assert (Y : excl s = Some t) by (apply L1; rewrite H; reflexivity). congruence.
    + intro u. destruct (Nat.eq_dec u t) as [->|N].
      * rewrite set_same. cbn. rewrite <- L2, H. cbn. tauto.
      * rewrite set_other by exact N. apply L2.
    + congruence.
Qed.
Lemma locks_start : forall f, locks (start f).
Proof. intro f. unfold locks, start. cbn. split; [|split]; intros; try split; try discriminate; try tauto. Qed.

(** ** C58: readers *)
Section Readers.
Variable old : bytes.
Hypothesis MO : merging_only jobs.
Let W := whole jobs old.

Definition texts (p : pc) : Prop :=
  match p with
  | Read b | Merging b | Got b => W b
  | AskExcl _ new _ tr | Excl new _ tr => W new /\ tr = true
  | Truncated new _ | Writing new _ _ => W new
  | _ => True
  end.
Definition contents (s : sys) : Prop :=
  match excl s with
  | Some t => match at_ s t with
              | Truncated _ _ => file s = Some []
              | Writing new pos k => file s = Some (firstn k new) /\ pos = k
              | _ => exists b, file s = Some b /\ W b
              end
  | None => exists b, file s = Some b /\ W b
  end.
Definition readers_inv (s : sys) : Prop := locks s /\ (forall t, texts (at_ s t)) /\ contents s.

Lemma texts_move : forall s t p, (forall u, texts (at_ s u)) -> texts p -> forall u, texts (at_ (move s t p) u).
Proof.
  intros s t p H Hp u. unfold move. cbn [at_]. destruct (Nat.eq_dec u t) as [->|N];
    [rewrite set_same; exact Hp|rewrite set_other by exact N; apply H].
Qed.
Lemma contents_move : forall s t p, locks s -> contents s -> holds_excl (at_ s t) = false -> contents (move s t p).
Proof.
  intros s t p [L1 _] C E. unfold contents, move in *. cbn [at_ excl file].
  destruct (excl s) as [u|] eqn:X; [|exact C].
  assert (N : u <> t). { intros ->. assert (Y := proj2 (L1 t) eq_refl). congruence. }
  rewrite set_other by exact N. exact C.
Qed.
Lemma some_excl : forall s t, locks s -> holds_excl (at_ s t) = true -> excl s = Some t.
Proof. intros s t [L1 _] H. apply L1, H. Qed.
Lemma whole_file : forall s, contents s -> shared s <> [] -> locks s -> exists b, file s = Some b /\ W b.
Proof.
  intros s C N [_ [_ L3]]. unfold contents in C. destruct (excl s) as [u|] eqn:X; [|exact C].
  destruct N. apply L3. congruence.
Qed.

Lemma readers_step : forall s t s', step jobs proc s t s' -> readers_inv s -> readers_inv s'.
Proof.
  intros s t s' St [L [T C]]. split; [exact (locks_step _ _ _ St L)|].
  assert (Tt := T t).
  inversion St; subst; clear St; rewrite H in Tt; cbn [texts] in Tt.
  - split; [apply texts_move; [exact T|exact I]|]. apply contents_move; [exact L|exact C|rewrite H; reflexivity].
  - split; [apply texts_move; [exact T|exact I]|]. apply contents_move; [exact L|exact C|rewrite H; reflexivity].
  - split; [apply texts_move; [exact T|exact I]|]. apply contents_move; [exact L|exact C|rewrite H; reflexivity].
  - split; [apply texts_move; [exact T|exact I]|]. apply contents_move; [exact L|exact C|rewrite H; reflexivity].
  - exfalso. unfold contents in C. destruct (excl s) as [u|].
    + destruct (at_ s u). all: try congruence. all: try (destruct C as [C1 C2]; congruence). all: destruct C as [? [Cb C2]]; congruence.
    + destruct C as [b [Cb _]]; congruence.
  - destruct (MO t) as [X|[f [u X]]]; congruence.
  - split; [apply texts_move; [exact T|exact I]|].
    assert (C' := contents_move s t Shared L C). rewrite H in C'. specialize (C' eq_refl).
    unfold contents in *. cbn [with_shared move excl at_ file] in *. exact C'.
  - split; [apply texts_move; [exact T|exact I]|]. apply contents_move; [exact L|exact C|rewrite H; reflexivity].
  - split; [apply texts_move; [exact T|destruct (is_reader (jobs t)); exact I]|]. apply contents_move; [exact L|exact C|rewrite H; reflexivity].
  - assert (Wb : W b).
    { destruct (whole_file s C) as [b' [E Wb]].
      - intro X. destruct L as [_ [L2 _]]. assert (Y : In t (shared s)) by (apply L2; rewrite H; reflexivity). rewrite X in Y. destruct Y.
      - exact L.
      - congruence. }
    split; [apply texts_move; [exact T|exact Wb]|]. apply contents_move; [exact L|exact C|rewrite H; reflexivity].
  - split; [apply texts_move; [exact T|destruct (is_reader (jobs t)); exact Tt]|].
    assert (C' := contents_move s t (if is_reader (jobs t) then Got b else Merging b) L C). rewrite H in C'. specialize (C' eq_refl).
    unfold contents in *. cbn [with_shared move excl at_ file] in *. exact C'.
  - split; [apply texts_move; [exact T|]|apply contents_move; [exact L|exact C|rewrite H; reflexivity]].
    split; [|reflexivity]. exact (wh_merge jobs old t fresh upd b new Tt H0 H1).
  - split; [apply texts_move; [exact T|exact I]|]. apply contents_move; [exact L|exact C|rewrite H; reflexivity].
  - split; [apply texts_move; [exact T|exact Tt]|].
    unfold contents, with_excl, move in *. cbn [excl at_ file] in *. rewrite set_same. rewrite H0 in C. exact C.
  - split; [apply texts_move; [exact T|exact Tt]|]. apply contents_move; [exact L|exact C|rewrite H; reflexivity].
  - split; [apply texts_move; [exact T|exact I]|]. apply contents_move; [exact L|exact C|rewrite H; reflexivity].
  - split; [apply (texts_move s t (Truncated new pos)); [exact T|apply Tt]|].
    assert (X := some_excl s t L). rewrite H in X. specialize (X eq_refl).
    unfold contents, with_file, move. cbn [excl at_ file]. rewrite X, set_same. reflexivity.
  - destruct Tt as [_ Y]. discriminate Y.
  - split; [apply texts_move; [exact T|exact Tt]|].
    assert (X := some_excl s t L). rewrite H in X. specialize (X eq_refl).
    unfold contents, move in *. cbn [excl at_ file] in *. rewrite X in C |- *. rewrite H in C. rewrite set_same. split; [exact C|reflexivity].
  - split; [apply (texts_move s t (Writing new (pos + c) (k + c))); [exact T|exact Tt]|].
    assert (X := some_excl s t L). rewrite H in X. specialize (X eq_refl).
    unfold contents, with_file, move in *. cbn [excl at_ file] in *. rewrite X in C |- *. rewrite H in C. rewrite set_same.
    destruct C as [E ->]. rewrite E in H2. injection H2 as <-. rewrite write_at_next by exact H1. split; reflexivity.
  - split; [apply texts_move; [exact T|exact I]|].
    assert (X := some_excl s t L). rewrite H in X. specialize (X eq_refl).
    unfold contents, with_excl, move in *. cbn [excl at_ file] in *. rewrite X in C. rewrite H in C.
    destruct C as [E _]. rewrite firstn_all in E. exists new. split; assumption.
  - split; [apply texts_move; [exact T|exact I]|]. apply contents_move; [exact L|exact C|rewrite H; reflexivity].
Qed.

Lemma readers_reachable : forall s, reachable jobs proc (start (Some old)) s -> readers_inv s.
Proof.
  intros s R. induction R as [|s t s' R IH St].
  - split; [apply locks_start|]. split; [intro t; exact I|].
    exists old. split; [reflexivity|]. apply wh_old.
  - exact (readers_step s t s' St IH).
Qed.
End Readers.
End Sys.

(** While any number of processes with any number of threads read the file and merge pacts
    into it, in any schedule, a reader gets the text of a whole pact: the old one or one that
    merging produced, never a part of a text. *)
Theorem C58_readers_see_whole_pacts : forall jobs proc old s t b,
  merging_only jobs -> reachable jobs proc (start (Some old)) s ->
  at_ s t = Got b -> whole jobs old b.
Proof.
  intros jobs proc old s t b MO R G. destruct (readers_reachable jobs proc old MO s R) as [_ [T _]].
  specialize (T t). rewrite G in T. exact T.
Qed.
(** Whenever nobody has the exclusive lock, the file holds a whole pact. *)
Theorem C58_unlocked_file_is_whole : forall jobs proc old s,
  merging_only jobs -> reachable jobs proc (start (Some old)) s -> excl s = None ->
  exists b, file s = Some b /\ whole jobs old b.
Proof.
  intros jobs proc old s MO R X. destruct (readers_reachable jobs proc old MO s R) as [_ [_ C]].
  unfold contents in C. rewrite X in C. exact C.
Qed.

Lemma reach_trans : forall jobs proc a b c, reachable jobs proc a b -> reachable jobs proc b c -> reachable jobs proc a c.
Proof. intros jobs proc a b c H1 H2. induction H2; [exact H1|]. eapply r_step; eassumption. Qed.
Lemma reach_step : forall jobs proc a t b c, step jobs proc a t b -> reachable jobs proc b c -> reachable jobs proc a c.
Proof. intros jobs proc a t b c H1 H2. eapply reach_trans; [|exact H2]. eapply r_step; [apply r_start|exact H1]. Qed.

(** Steps of a schedule, for the examples: the next step of thread [T]. *)
Ltac go T := eapply (reach_step _ _ _ T); [first
  [ solve [eapply s_lock; reflexivity] | solve [eapply s_open; reflexivity] | solve [eapply s_exists; reflexivity]
  | solve [eapply s_create; reflexivity] | solve [eapply s_overwrite; reflexivity]
  | solve [eapply s_shared; reflexivity] | solve [eapply s_read; reflexivity] | solve [eapply s_unshare; reflexivity]
  | solve [eapply s_merge; [reflexivity|reflexivity|eassumption]]
  | solve [eapply s_merge; reflexivity]
  | solve [eapply s_excl; reflexivity] | solve [eapply s_truncate; reflexivity] | solve [eapply s_no_truncate; reflexivity]
  | solve [eapply s_seek; reflexivity] | solve [eapply s_leave; reflexivity] ] | ].
