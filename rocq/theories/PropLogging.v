(** C124: the sinks of the logger. *)
From Coq Require Import Ascii String List Arith NArith ZArith Lia Bool.
From Verif Require Import Base PathExp Json Text TextProofs SpecCliArgs Logging SpecLogging.
From Verif Require PropCliArgs.
Import ListNotations.
Open Scope N_scope.

Lemma strip_iff : forall p s r, strip p s = Some r <-> s = p ++ r.
Proof.
  induction p as [|a p IH]; intros s r; cbn; [split; [intro H; injection H as <-; reflexivity|intros ->; reflexivity]|].
  destruct s as [|b s]; [split; discriminate|]. destruct (N.eqb_spec a b) as [->|NE].
  - rewrite IH. split; [intros ->; reflexivity|intro H; injection H; auto].
  - split; [discriminate|intro H; injection H; congruence].
Qed.

Section Proofs.
Variable w : world.
Notation white := (white w).
Notation padded := (padded w).
Notation names_sink := (names_sink w).
Lemma white_iff : forall s, white s <-> forallb (is_space w) s = true.
Proof. intro s. unfold SpecLogging.white. rewrite Forall_forall, forallb_forall. reflexivity. Qed.
Lemma padded_iff : forall core t, no_space_ends w core -> (padded core t <-> trim w t = core).
Proof.
  intros core t NS. split.
  - intros (p & q & -> & P & Q). apply trim_padded; [now apply white_iff|now apply white_iff|exact NS].
  - intros <-. destruct (trim_split w t) as (p & q & E & P & Q). exists p, q. rewrite <- E at 1. split; [reflexivity|]. split; now apply white_iff.
Qed.
Lemma two_ends : forall x s c, no_space_ends w (x :: s ++ [c]) <-> is_space w x = false /\ is_space w c = false.
Proof. intros x s c. unfold no_space_ends. change (x :: s ++ [c]) with ((x :: s) ++ [c]). rewrite rev_unit. reflexivity. Qed.
Lemma file_text : forall path c, S_ "file " ++ path ++ [c] = 102 :: (105 :: 108 :: 101 :: 32 :: path) ++ [c].
Proof. reflexivity. Qed.
Lemma file_ends : forall path c, is_space w c = false -> no_space_ends w (S_ "file " ++ path ++ [c]).
Proof. intros path c C. rewrite file_text. apply two_ends. split; [reflexivity|exact C]. Qed.
Lemma word_ends : forall s : string, In s ["stdout"; "stderr"; "buffer"]%string -> no_space_ends w (S_ s).
Proof. intros s [<-|[<-|[<-|[]]]]; split; reflexivity. Qed.
(** The sink of a text, if it can be made. *)
Lemma file_path : forall t r, strip (S_ "file ") (trim w t) = Some r <-> exists path c, r = path ++ [c] /\ is_space w c = false /\ padded (S_ "file " ++ path ++ [c]) t.
Proof.
  intros t r. rewrite strip_iff. split.
  - intro E. pose proof (trim_ends w t) as NS. rewrite E in NS.
    destruct (rev r) as [|c r'] eqn:R.
    + apply (f_equal (@rev N)) in R. rewrite rev_involutive in R. cbn in R. subst r. rewrite app_nil_r in NS. destruct NS as [_ NS]. cbn in NS. discriminate.
    + assert (R' : r = rev r' ++ [c]) by (rewrite <- (rev_involutive r), R; reflexivity).
      exists (rev r'), c. split; [exact R'|]. subst r.
      assert (C : is_space w c = false).
      { rewrite file_text in NS. now apply two_ends in NS. }
      split; [exact C|]. apply padded_iff; [now apply file_ends|exact E].
  - intros (path & c & -> & C & P). apply padded_iff in P; [exact P|now apply file_ends].
Qed.
Definition opens (can_open : nat -> str -> bool) (time : nat) (k : sink) : Prop := forall p, k = KFile p -> can_open time p = true.
Variable can_open : nat -> str -> bool.
Notation sink_of := (sink_of w can_open).
Lemma sink_ok : forall n t k, sink_of n t = inl k <-> names_sink t k /\ opens can_open n k.
Proof.
  intros n t k. unfold Logging.sink_of.
  assert (A : forall s : string, In s ["stdout"; "stderr"; "buffer"]%string -> str_eqb (trim w t) (S_ s) = true <-> padded (S_ s) t).
  { intros s I. rewrite str_eqb_eq. symmetry. apply padded_iff. now apply word_ends. }
  pose proof (A "stdout"%string) as A1. pose proof (A "stderr"%string) as A2. pose proof (A "buffer"%string) as A3. clear A.
  pose proof (fun r => file_path t r) as A4.
  assert (D1 : S_ "stdout" <> S_ "stderr") by discriminate. assert (D2 : S_ "stdout" <> S_ "buffer") by discriminate. assert (D3 : S_ "stderr" <> S_ "buffer") by discriminate.
  assert (NF : forall s : string, In s ["stdout"; "stderr"; "buffer"]%string -> forall r, trim w t = S_ s -> strip (S_ "file ") (trim w t) = Some r -> False).
  { intros s I r E H. rewrite E in H. destruct I as [<-|[<-|[<-|[]]]]; discriminate. }
  cbn [In] in A1, A2, A3.
  destruct (str_eqb (trim w t) (S_ "stdout")) eqn:E1; [|destruct (str_eqb (trim w t) (S_ "stderr")) eqn:E2; [|destruct (str_eqb (trim w t) (S_ "buffer")) eqn:E3; [|destruct (strip (S_ "file ") (trim w t)) as [r|] eqn:E4]]].
  - apply str_eqb_eq in E1. split.
    + intro H; injection H as <-. split; [constructor; apply A1; auto|intros p; discriminate].
    + intros [H _]. destruct H as [P|P|P|path c C P]; [reflexivity| | |]; exfalso.
      * apply padded_iff in P; [congruence|apply word_ends; cbn; auto].
      * apply padded_iff in P; [congruence|apply word_ends; cbn; auto].
      * eapply (NF "stdout"%string); [cbn; auto|exact E1|]. apply A4. exists path, c. eauto.
  - apply str_eqb_eq in E2. split.
    + intro H; injection H as <-. split; [constructor; apply A2; auto|intros p; discriminate].
    + intros [H _]. destruct H as [P|P|P|path c C P]; [|reflexivity| |]; exfalso.
      * apply padded_iff in P; [congruence|apply word_ends; cbn; auto].
      * apply padded_iff in P; [congruence|apply word_ends; cbn; auto].
      * eapply (NF "stderr"%string); [cbn; auto|exact E2|]. apply A4. exists path, c. eauto.
  - apply str_eqb_eq in E3. split.
    + intro H; injection H as <-. split; [constructor; apply A3; auto|intros p; discriminate].
    + intros [H _]. destruct H as [P|P|P|path c C P]; [| |reflexivity|]; exfalso.
      * apply padded_iff in P; [congruence|apply word_ends; cbn; auto].
      * apply padded_iff in P; [congruence|apply word_ends; cbn; auto].
      * eapply (NF "buffer"%string); [cbn; auto|exact E3|]. apply A4. exists path, c. eauto.
  - destruct (proj1 (A4 r) eq_refl) as (path & c & -> & C & P).
    assert (ONLY : forall k', names_sink t k' -> k' = KFile (path ++ [c])).
    { intros k' H. destruct H as [Q|Q|Q|path' c' C' Q].
      - apply A1 in Q; [discriminate|auto].
      - apply A2 in Q; [discriminate|auto].
      - apply A3 in Q; [discriminate|auto].
      - assert (F : Some (path ++ [c]) = Some (path' ++ [c'])) by (apply A4; eauto). injection F as ->. reflexivity. }
    destruct (can_open n (path ++ [c])) eqn:O1; split.
    + intro H; injection H as <-. split; [now constructor|]. intros p H; injection H as <-. exact O1.
    + intros [H _]. now rewrite (ONLY k H).
    + discriminate.
    + intros [H OP]. rewrite (ONLY k H) in OP. rewrite (OP _ eq_refl) in O1. discriminate.
  - split; [discriminate|]. intros [H _]. exfalso. destruct H as [Q|Q|Q|path' c' C' Q].
    + apply A1 in Q; [discriminate|auto].
    + apply A2 in Q; [discriminate|auto].
    + apply A3 in Q; [discriminate|auto].
    + assert (F : None = Some (path' ++ [c'])) by (apply A4; eauto). discriminate.
Qed.
Lemma sink_unknown : forall n t, sink_of n t = inr (-4)%Z <-> forall k, ~ names_sink t k.
Proof.
  intros n t. split.
  - intros H k K. unfold Logging.sink_of in H.
    destruct (str_eqb (trim w t) (S_ "stdout")) eqn:E1; [discriminate|]. destruct (str_eqb (trim w t) (S_ "stderr")) eqn:E2; [discriminate|].
    destruct (str_eqb (trim w t) (S_ "buffer")) eqn:E3; [discriminate|]. destruct (strip (S_ "file ") (trim w t)) as [r|] eqn:E4; [destruct (can_open n r); discriminate|].
    destruct K as [Q|Q|Q|path' c' C' Q].
    + apply padded_iff in Q; [|apply word_ends; cbn; auto]. rewrite Q, str_eqb_refl in E1. discriminate.
    + apply padded_iff in Q; [|apply word_ends; cbn; auto]. rewrite Q, str_eqb_refl in E2. discriminate.
    + apply padded_iff in Q; [|apply word_ends; cbn; auto]. rewrite Q, str_eqb_refl in E3. discriminate.
    + assert (F : strip (S_ "file ") (trim w t) = Some (path' ++ [c'])) by (apply file_path; eauto). congruence.
  - intro NO. unfold Logging.sink_of.
    destruct (str_eqb (trim w t) (S_ "stdout")) eqn:E1; [exfalso; apply (NO KOut), ns_out, padded_iff; [apply word_ends; cbn; auto|now apply str_eqb_eq]|].
    destruct (str_eqb (trim w t) (S_ "stderr")) eqn:E2; [exfalso; apply (NO KErr), ns_err, padded_iff; [apply word_ends; cbn; auto|now apply str_eqb_eq]|].
    destruct (str_eqb (trim w t) (S_ "buffer")) eqn:E3; [exfalso; apply (NO KBuffer), ns_buffer, padded_iff; [apply word_ends; cbn; auto|now apply str_eqb_eq]|].
    destruct (strip (S_ "file ") (trim w t)) as [r|] eqn:E4; [|reflexivity]. apply file_path in E4. destruct E4 as (path & c & -> & C & P).
    exfalso. apply (NO (KFile (path ++ [c]))). now constructor.
Qed.
Lemma sink_codes : forall n t z, sink_of n t = inr z -> z = (-4)%Z \/ z = (-6)%Z.
Proof.
  intros n t z. unfold Logging.sink_of. destruct (str_eqb (trim w t) (S_ "stdout")); [discriminate|]. destruct (str_eqb (trim w t) (S_ "stderr")); [discriminate|].
  destruct (str_eqb (trim w t) (S_ "buffer")); [discriminate|]. destruct (strip (S_ "file ") (trim w t)) as [r|]; [|intro H; injection H as <-; auto].
  destruct (can_open n r); [discriminate|intro H; injection H as <-; auto].
Qed.
Lemma sink_no_file : forall n t, sink_of n t = inr (-6)%Z <-> exists p, names_sink t (KFile p) /\ can_open n p = false.
Proof.
  intros n t. split.
  - intro H. assert (F : exists r, strip (S_ "file ") (trim w t) = Some r /\ can_open n r = false).
    { unfold Logging.sink_of in H. destruct (str_eqb (trim w t) (S_ "stdout")); [discriminate|]. destruct (str_eqb (trim w t) (S_ "stderr")); [discriminate|].
      destruct (str_eqb (trim w t) (S_ "buffer")); [discriminate|]. destruct (strip (S_ "file ") (trim w t)) as [r|]; [|discriminate]. exists r. split; [reflexivity|]. now destruct (can_open n r). }
    destruct F as (r & E & O1). apply file_path in E. destruct E as (path & c & -> & C & P). exists (path ++ [c]). split; [now constructor|exact O1].
  - intros (p & K & O1). destruct (sink_of n t) as [k|z] eqn:S1.
    + exfalso. apply sink_ok in S1. destruct S1 as [K' OP].
      assert (U : k = KFile p).
      { inversion K as [| | |path c C P E]; subst. apply padded_iff in P; [|now apply file_ends].
        inversion K' as [Q|Q|Q|path' c' C' Q]; subst; (apply padded_iff in Q; [|first [now apply file_ends|apply word_ends; cbn; auto]]); rewrite P in Q; try discriminate.
        injection Q as Q. now rewrite Q. }
      subst k. rewrite (OP p eq_refl) in O1. discriminate.
    + destruct (sink_codes _ _ _ S1) as [->| ->]; [|reflexivity]. exfalso. apply sink_unknown with (k := KFile p) in S1. now apply S1.
Qed.

Variable render : nat -> message -> list N.
Variable passes : str -> record -> bool.
Notation step := (step w can_open render passes).
(** What attaching a sink answers, and when it is attached. *)
Theorem C124_attach : forall s t spec level, exists s' code, step s (Attach t spec level) = Some (s', RCode code, []) /\
  (from_utf8 spec = None <-> code = (-3)%Z) /\
  (code = (-4)%Z <-> exists sp, from_utf8 spec = Some sp /\ forall k, ~ names_sink sp k) /\
  (code = (-6)%Z <-> exists p, denotes w spec (KFile p) /\ can_open (clock s) p = false) /\
  (code = 0%Z <-> exists k, denotes w spec k /\ opens can_open (clock s) k) /\
  In code [0; -3; -4; -6]%Z /\
  active s' = active s /\ out s' = out s /\ (forall t', t' <> t -> pending s' t' = pending s t') /\
  pending s' t = pending s t ++ (if (code =? 0)%Z then match from_utf8 spec with Some sp => [(sp, level)] | None => [] end else []).
Proof.
  intros s t spec level. cbn [Logging.step coded option_map]. unfold attach_sink, denotes. destruct (from_utf8 spec) as [sp|] eqn:U.
  - destruct (sink_of (clock s) sp) as [k|z] eqn:S1.
    + eexists. exists 0%Z. split; [reflexivity|]. pose proof S1 as S2. apply sink_ok in S2. destruct S2 as [K OP].
      repeat match goal with |- _ /\ _ => split end; try reflexivity; try (split; discriminate); try (split; intros; reflexivity); try (intros; reflexivity).
      * split; [discriminate|]. intros (sp' & E & NO). injection E as <-. now apply NO in K.
      * split; [discriminate|]. intros (p & (sp' & E & K') & O1). injection E as <-.
        assert (X : sink_of (clock s) sp = inr (-6)%Z) by (apply sink_no_file; eauto). congruence.
      * split; [|reflexivity]. intros _. exists k. eauto.
      * cbn; auto.
      * cbn. intros t' N0. destruct (Nat.eqb_spec t' t); [congruence|reflexivity].
      * cbn. rewrite Nat.eqb_refl. reflexivity.
    + eexists. exists z. split; [reflexivity|].
      assert (NOK : ~ exists k, (exists t0, Some sp = Some t0 /\ names_sink t0 k) /\ opens can_open (clock s) k).
      { intros (k & (sp' & E & K) & OP). injection E as <-. assert (X : sink_of (clock s) sp = inl k) by (apply sink_ok; auto). congruence. }
      destruct (sink_codes _ _ _ S1) as [->| ->].
      * pose proof (proj1 (sink_unknown _ _) S1) as NO. repeat match goal with |- _ /\ _ => split end; try reflexivity; try (split; discriminate); try (split; intros; reflexivity); try (intros; reflexivity).
        -- split; [|reflexivity]. intros _. eauto.
        -- split; [discriminate|]. intros (p & (sp' & E & K') & O1). injection E as <-. now apply NO in K'.
        -- split; [discriminate|]. intro H. now apply NOK in H.
        -- cbn; auto.
        -- cbn. now rewrite app_nil_r.
      * pose proof (proj1 (sink_no_file _ _) S1) as (p & K & O1). repeat match goal with |- _ /\ _ => split end; try reflexivity; try (split; discriminate); try (split; intros; reflexivity); try (intros; reflexivity).
        -- split; [discriminate|]. intros (sp' & E & NO). injection E as <-. now apply NO in K.
        -- split; [|reflexivity]. intros _. exists p. eauto.
        -- split; [discriminate|]. intro H. now apply NOK in H.
        -- cbn; auto.
        -- cbn. now rewrite app_nil_r.
  - eexists. exists (-3)%Z. split; [reflexivity|]. repeat match goal with |- _ /\ _ => split end; try reflexivity; try (split; discriminate); try (split; intros; reflexivity); try (intros; reflexivity).
    + split; [discriminate|]. intros (sp & E & _). discriminate.
    + split; [discriminate|]. intros (p & (sp & E & _) & _). discriminate.
    + split; [discriminate|]. intros (k & (sp & E & _) & _). discriminate.
    + cbn; auto.
    + cbn. now rewrite app_nil_r.
Qed.
End Proofs.
