(** Proofs about the calls of the C interface that set and show contents (C118). *)
From Coq Require Import Ascii String List Arith NArith ZArith Lia Bool Sorted Permutation.
From Verif Require Import Base PathExp Json Text TextProofs MatchingRules Matchers Headers ContentType SpecQuery Http Expr Generators RuleExpr Merge Handles
  FfiRead SpecFfiRead PropPactFile2.
Import ListNotations.
Open Scope N_scope.

Lemma forallb_Forall' : forall (s : str), forallb scalar s = true <-> Forall (fun c => scalar c = true) s.
Proof. intro s. rewrite forallb_forall, Forall_forall. reflexivity. Qed.
Lemma encodes_iff : forall bs s, encodes bs s <-> from_utf8 bs = Some s.
Proof.
  intros bs s. unfold encodes. rewrite <- forallb_Forall'. split.
  - intros [-> H]. exact (from_utf8_utf8 s H).
  - exact (from_utf8_inv bs s).
Qed.
Lemma not_utf8 : forall bs, from_utf8 bs = None <-> ~ is_utf8 bs.
Proof.
  intro bs. split.
  - intros E [s H]. apply encodes_iff in H. congruence.
  - intro H. destruct (from_utf8 bs) as [s|] eqn:E; [|reflexivity]. contradiction H. exists s. apply encodes_iff. exact E.
Qed.
Lemma char_nul : forall c, In 0 (utf8_char c) <-> c = 0.
Proof.
  intro c. unfold utf8_char. split.
  - destruct (N.ltb_spec c 128); [intros [E|[]]; exact E|].
    destruct (N.ltb_spec c 2048); [|destruct (N.ltb_spec c 65536)]; cbn [In]; intro H'; repeat (destruct H' as [H'|H']; [lia|]); contradiction.
  - intros ->. left. reflexivity.
Qed.
Lemma nul_iff : forall s, In 0 (utf8 s) <-> In 0 s.
Proof.
  intro s. unfold utf8. rewrite in_flat_map. split.
  - intros [c [H1 H2]]. apply char_nul in H2. subst. exact H1.
  - intro H. exists 0. split; [exact H | apply char_nul; reflexivity].
Qed.
Lemma to_c_ok : forall s, ~ In 0 s -> to_c s = Gave (utf8 s).
Proof.
  intros s H. unfold to_c. destruct (existsb (fun c => c =? 0) s) eqn:E; [|reflexivity].
  apply existsb_exists in E as [c [I E]]. apply N.eqb_eq in E. subst. contradiction.
Qed.
Lemma to_c_nul : forall s, In 0 s -> to_c s = Failed.
Proof.
  intros s H. unfold to_c. replace (existsb (fun c => c =? 0) s) with true; [reflexivity|].
  symmetry. apply existsb_exists. exists 0. split; [exact H | reflexivity].
Qed.
Lemma in_dec0 : forall l : list N, In 0 l \/ ~ In 0 l.
Proof. intro l. destruct (in_dec N.eq_dec 0 l); auto. Qed.
Lemma says_text_iff : forall ct h, says_text ct h = true <-> textual ct h.
Proof.
  intros ct h. unfold says_text, textual. destruct h as [[| |]|].
  - split; [discriminate|]. intros [H|[H _]]; discriminate.
  - split; auto.
  - split; [discriminate|]. intros [H|[H _]]; discriminate.
  - destruct ct as [c|]; split.
    + intro H. right. split; [reflexivity|]. exists c. auto.
    + intros [H|[_ [c' [E H]]]]; [discriminate|]. injection E as <-. exact H.
    + discriminate.
    + intros [H|[_ [c' [E _]]]]; discriminate.
Qed.

(** What a call that reads contents gives, whatever the contents. *)
Theorem C118_text_shown : forall b, shown b (contents_text b) /\ forall r, shown b r -> r = contents_text b.
Proof.
  intro b. assert (W : forall r, shown b r -> r = contents_text b).
  { intros r H. destruct H as [| | |bs ct h T [s U] NN|bs ct h T [s U] IN|bs ct h NT]; try reflexivity.
    - unfold contents_text. cbn [value_as_string]. apply says_text_iff in T. rewrite T. pose proof U as U2. apply encodes_iff in U. rewrite U.
      destruct U2 as [-> _]. rewrite to_c_ok; [reflexivity|]. intro I. apply NN. apply nul_iff. exact I.
    - unfold contents_text. cbn [value_as_string]. apply says_text_iff in T. rewrite T. pose proof U as U2. apply encodes_iff in U. rewrite U.
      destruct U2 as [-> _]. rewrite to_c_nul; [reflexivity|]. apply nul_iff. exact IN.
    - unfold contents_text. cbn [value_as_string]. destruct (says_text ct h) eqn:T; [|reflexivity].
      destruct (from_utf8 bs) as [s|] eqn:U; [|reflexivity].
      contradiction NT. split; [apply says_text_iff; exact T | exists s; apply encodes_iff; exact U]. }
  split; [|exact W].
  assert (X : exists r, shown b r).
  { destruct b as [| | |bs ct h]; try (eexists; constructor; fail).
    destruct (says_text ct h) eqn:T.
    - destruct (from_utf8 bs) as [s|] eqn:U.
      + destruct (in_dec0 bs) as [I|I].
        * exists Failed. apply sh_nul; [apply says_text_iff; exact T | exists s; apply encodes_iff; exact U | exact I].
        * exists (Gave bs). apply sh_text; [apply says_text_iff; exact T | exists s; apply encodes_iff; exact U | exact I].
      + exists (Gave []). apply sh_other. intros [_ V]. apply not_utf8 in U. contradiction.
    - exists (Gave []). apply sh_other. intros [V _]. apply says_text_iff in V. congruence. }
  destruct X as [r X]. rewrite <- (W r X). exact X.
Qed.
(** The length and the bytes are those of the contents; both are nothing when there are no contents. *)
Theorem C118_bytes_shown : forall bs ct h,
  contents_bytes (BPresent bs ct h) = Some bs /\ contents_length (BPresent bs ct h) = length bs /\
  forall b, b = BMissing \/ b = BEmpty \/ b = BNull -> contents_bytes b = None /\ contents_length b = O.
Proof. intros bs ct h. split; [reflexivity|]. split; [reflexivity|]. intros b [->|[->| ->]]; auto. Qed.

Section Set_.
Variable x : externals.
Variable lossy : list N -> str.

Lemma type_given_kept : forall ct, type_kept x lossy ct (type_given x lossy ct).
Proof.
  intros [[|b bs]|]; [apply tk_empty| |apply tk_null]. unfold type_given, optional_str.
  destruct (from_utf8 (b :: bs)) as [s|] eqn:E.
  - apply tk_text. apply encodes_iff. exact E.
  - apply tk_lossy. apply not_utf8. exact E.
Qed.
Lemma type_kept_fun : forall ct t, type_kept x lossy ct t -> t = type_given x lossy ct.
Proof.
  intros ct t H. destruct H as [| |b bs s E|b bs E]; try reflexivity; unfold type_given, optional_str.
  - apply encodes_iff in E. rewrite E. reflexivity.
  - apply not_utf8 in E. rewrite E. reflexivity.
Qed.

(** What a call stores: nothing, or one body at one place. *)
Definition effect (c : set_call) : option (place * option body) :=
  match c with
  | SetText p t ct => Some (p, text_contents x lossy t ct)
  | SetBytes p b ct => Some (p, Some (byte_contents x lossy b ct))
  | SetDescription _ => None
  end.
Lemma stores_iff : forall c p b, stores x lossy c p b <-> effect c = Some (p, Some b).
Proof.
  intros c p b. split.
  - intro H. destruct H as [p ct|p bs ct t [s U] K|p ct|p bs ct t K]; cbn [effect text_contents byte_contents]; try reflexivity.
    + pose proof U as U2. apply encodes_iff in U. rewrite U. destruct U2 as [-> _]. rewrite <- (type_kept_fun ct t K). reflexivity.
    + rewrite <- (type_kept_fun ct t K). reflexivity.
  - destruct c as [q t ct|q bs ct|t]; cbn [effect]; intro H; try discriminate.
    + destruct t as [bs|]; cbn [text_contents] in H.
      * destruct (from_utf8 bs) as [s|] eqn:U; [|discriminate]. injection H as -> <-.
        apply encodes_iff in U. pose proof U as U2. destruct U2 as [E _]. rewrite <- E. apply st_text; [exists s; exact U | apply type_given_kept].
      * injection H as -> <-. apply st_no_text.
    + injection H as -> <-. destruct bs as [bs|]; cbn [byte_contents]; [apply st_bytes; apply type_given_kept | apply st_no_bytes].
Qed.
Lemma set_step_effect : forall v c, snd (set_step x lossy v c) = match effect c with Some (p, b) => put_body p b (snd v) | None => snd v end.
Proof. intros v [p t ct|p b ct|t]; reflexivity. Qed.

Lemma place_eq : forall p q, place_eqb p q = true <-> p = q.
Proof.
  intros p q. destruct p, q; cbn; split; try discriminate; try reflexivity.
  - intro H. apply Nat.eqb_eq in H. congruence.
  - intro H. injection H as ->. apply Nat.eqb_refl.
Qed.
Lemma update_same : forall A n (f : A -> A) l, nth_error (update_nth n f l) n = option_map f (nth_error l n).
Proof. induction n as [|n IH]; destruct l as [|a l]; cbn; auto. Qed.
Lemma update_other : forall A n m (f : A -> A) l, n <> m -> nth_error (update_nth n f l) m = nth_error l m.
Proof. induction n as [|n IH]; destruct l as [|a l], m as [|m]; cbn; intro H; auto; try congruence. Qed.
Lemma update_length : forall A n (f : A -> A) l, length (update_nth n f l) = length l.
Proof. induction n as [|n IH]; destruct l as [|a l]; cbn; auto. Qed.
Lemma long_length : forall n l, length (long_enough n l) = Nat.max (length l) (S n).
Proof. intros n l. unfold long_enough. rewrite app_length, repeat_length. lia. Qed.
Lemma long_nth : forall n l m, nth_error (long_enough n l) m =
  if (m <? length l)%nat then nth_error l m else if (m <? S n)%nat then Some default_message else None.
Proof.
  intros n l m. unfold long_enough. destruct (Nat.ltb_spec m (length l)) as [L|L].
  - apply nth_error_app1. exact L.
  - rewrite nth_error_app2 by exact L. destruct (Nat.ltb_spec m (S n)) as [L2|L2].
    + rewrite nth_error_repeat by lia. reflexivity.
    + apply nth_error_None. rewrite repeat_length. lia.
Qed.

(** One call. *)
Lemma put_there : forall p b i, part_of_kind p i -> body_at p (put_body p (Some b) i) = Some b.
Proof.
  intros p b [q r|m|q l]; cbn [part_of_kind].
  - intros [->| ->]; reflexivity.
  - intros ->. reflexivity.
  - intros [->|[n ->]]; [reflexivity|]. cbn [put_body body_at]. rewrite update_same.
    destruct (nth_error (long_enough n l) n) as [m|] eqn:E; [reflexivity|].
    apply nth_error_None in E. rewrite long_length in E. lia.
Qed.
(** What is at a place that a call does not store at: what was there, or an empty response that was put in. *)
Lemma put_elsewhere : forall p p' b i, p <> p' \/ b = None ->
  body_at p' (put_body p b i) =
  match body_at p' i with
  | Some b0 => Some b0
  | None => match p, p', i with
            | PReply n, PReply m, SyncMessage _ _ => if (m <? S n)%nat then Some BMissing else None
            | _, _, _ => None
            end
  end.
Proof.
  intros p p' b i H.
  destruct i as [q r|m|q l].
  - destruct p, p'; cbn; try reflexivity; destruct H as [H|H]; try congruence; subst; reflexivity.
  - destruct p, p'; cbn; try reflexivity; destruct H as [H|H]; try congruence; subst; reflexivity.
  - destruct p as [| | | |n], p' as [| | | |m]; cbn; try reflexivity;
      try (destruct H as [H|H]; [congruence|subst; reflexivity]); try (destruct (nth_error l m); reflexivity).
    assert (E : nth_error (match b with Some b => update_nth n (fun m => with_msg_body m b) (long_enough n l) | None => long_enough n l end) m
                = nth_error (long_enough n l) m).
    { destruct b as [b|]; [|reflexivity]. apply update_other. destruct H as [H|H]; [|discriminate]. intro J. subst. congruence. }
    rewrite E, long_nth. destruct (Nat.ltb_spec m (length l)) as [L|L].
    + destruct (nth_error l m) eqn:F; [reflexivity|]. apply nth_error_None in F. lia.
    + apply nth_error_None in L. rewrite L. destruct (m <? S n)%nat eqn:Z; cbn in Z; rewrite Z; reflexivity.
Qed.
Lemma put_kind : forall p q b i, part_of_kind p (put_body q b i) <-> part_of_kind p i.
Proof. intros p q b [a r|m|a l]; destruct q; cbn; reflexivity. Qed.
Lemma put_rest : forall p b i, same_but_contents i (put_body p b i).
Proof.
  intros p b [q r|m|q l].
  - destruct p; cbn; try (repeat (apply conj); reflexivity); destruct b; cbn; repeat (apply conj); reflexivity.
  - destruct p; cbn; try (repeat (apply conj); reflexivity); destruct b; cbn; repeat (apply conj); reflexivity.
  - assert (Keep : forall l, forall n m', nth_error l n = Some m' ->
      match nth_error l n with Some m => same_message_but m m' | None => msg_metadata m' = [] /\ msg_rules m' = [] end).
    { intros l0 n m' E. rewrite E. split; reflexivity. }
    destruct p as [| | | |k]; cbn [put_body same_but_contents].
    1,2,3: split; [split; reflexivity | apply Keep].
    + destruct b; cbn; (split; [split; reflexivity | apply Keep]).
    + split; [split; reflexivity|]. intros n m' E.
      assert (F : exists m0, nth_error (long_enough k l) n = Some m0 /\ same_message_but m0 m').
      { destruct b as [b|]; [|exists m'; split; [exact E | split; reflexivity]].
        destruct (Nat.eq_dec k n) as [->|NE].
        - rewrite update_same in E. destruct (nth_error (long_enough n l) n) as [m0|]; [|discriminate]. cbn in E. injection E as <-.
          exists m0. split; [reflexivity | split; reflexivity].
        - rewrite update_other in E by exact NE. exists m'. split; [exact E | split; reflexivity]. }
      destruct F as [m0 [F G]]. rewrite long_nth in F. destruct (Nat.ltb_spec n (length l)) as [L|L].
      * rewrite F. exact G.
      * apply nth_error_None in L. rewrite L. destruct (n <? S k)%nat; [|discriminate]. injection F as <-. destruct G as [-> ->]. split; reflexivity.
Qed.
Lemma rest_trans : forall i j k, (forall n, (n < responses i)%nat -> (n < responses j)%nat) -> same_but_contents i j -> same_but_contents j k -> same_but_contents i k.
Proof.
  intros [q r|m|q l] [q1 r1|m1|q1 l1] [q2 r2|m2|q2 l2]; cbn; try contradiction.
  - intros _ (A1&A2&A3&A4&A5&A6&A7&A8) (B1&B2&B3&B4&B5&B6&B7&B8). repeat (apply conj); congruence.
  - intros _ [A1 A2] [B1 B2]. split; congruence.
  - intros Len [[A1 A2] A3] [[B1 B2] B3]. split; [split; congruence|]. intros n m' E. specialize (B3 n m' E).
    destruct (nth_error l1 n) as [m1|] eqn:F.
    + specialize (A3 n m1 F). destruct (nth_error l n) as [m|]; destruct B3 as [C1 C2], A3 as [D1 D2]; split; congruence.
    + destruct (nth_error l n) as [m|] eqn:G; [|exact B3].
      apply nth_error_None in F. assert (n < length l)%nat by (apply nth_error_Some; congruence). specialize (Len n H). lia.
Qed.
Lemma put_responses : forall p b i, responses (put_body p b i) =
  match p, i with PReply n, SyncMessage _ l => Nat.max (length l) (S n) | _, _ => responses i end.
Proof.
  intros p b [q r|m|q l]; destruct p; cbn; try reflexivity. destruct b; [rewrite update_length|]; apply long_length.
Qed.

(** After any sequence of calls ... *)
Definition after (d : str) (i : payload) (cs : list set_call) : payload := snd (set_all x lossy (d, i) cs).
Lemma after_snoc : forall d i cs c, after d i (cs ++ [c]) = match effect c with Some (p, b) => put_body p b (after d i cs) | None => after d i cs end.
Proof. intros d i cs c. unfold after, set_all. rewrite fold_left_app. cbn [fold_left]. apply set_step_effect. Qed.
Lemma after_app : forall d i cs cs', after d i (cs ++ cs') = snd (set_all x lossy (fst (set_all x lossy (d, i) cs), after d i cs) cs').
Proof. intros d i cs cs'. unfold after, set_all. rewrite fold_left_app. destruct (fold_left (set_step x lossy) cs (d, i)); reflexivity. Qed.
Lemma after_kind : forall d i cs p, part_of_kind p (after d i cs) <-> part_of_kind p i.
Proof.
  intros d i cs p. induction cs as [|c cs IH] using rev_ind; [reflexivity|]. rewrite after_snoc.
  destruct (effect c) as [[q b]|]; [rewrite put_kind|]; exact IH.
Qed.

(** ... a part has the contents the last call for it gave it, ... *)
Theorem C118_last_call_wins : forall d i earlier c later p b, part_of_kind p i ->
  stores x lossy c p b -> (forall c' b', In c' later -> ~ stores x lossy c' p b') ->
  body_at p (after d i (earlier ++ c :: later)) = Some b.
Proof.
  intros d i earlier c later p b K St. apply stores_iff in St.
  induction later as [|c' later IH] using rev_ind; intro No.
  - rewrite after_snoc, St. apply put_there. apply after_kind. exact K.
  - replace (earlier ++ c :: later ++ [c']) with ((earlier ++ c :: later) ++ [c']) by (rewrite <- app_assoc; reflexivity).
    rewrite after_snoc. specialize (IH (fun c0 b0 I => No c0 b0 (in_or_app _ _ _ (or_introl I)))).
    destruct (effect c') as [[q b']|] eqn:E; [|exact IH].
    rewrite put_elsewhere; [rewrite IH; reflexivity|].
    destruct b' as [b'|]; [left|right; reflexivity]. intros ->.
    apply (No c' b'); [apply in_or_app; right; left; reflexivity | apply stores_iff; exact E].
Qed.
(** ... and a part no call gave contents to has those it had; a response that was put in to make room has none. *)
Theorem C118_other_parts_keep : forall d i cs p, (forall c b, In c cs -> ~ stores x lossy c p b) ->
  match body_at p i with
  | Some b => body_at p (after d i cs) = Some b
  | None => body_at p (after d i cs) = None \/ (body_at p (after d i cs) = Some BMissing /\ exists n, p = PReply n)
  end.
Proof.
  intros d i cs p. induction cs as [|c cs IH] using rev_ind; intro No.
  - unfold after. cbn. destruct (body_at p i); auto.
  - specialize (IH (fun c0 b0 I => No c0 b0 (in_or_app _ _ _ (or_introl I)))). rewrite after_snoc.
    destruct (effect c) as [[q b]|] eqn:E; [|exact IH].
    assert (H : q <> p \/ b = None).
    { destruct b as [b|]; [left|right; reflexivity]. intros ->. apply (No c b); [apply in_or_app; right; left; reflexivity | apply stores_iff; exact E]. }
    rewrite (put_elsewhere q p b _ H). destruct (body_at p i) as [b0|].
    + rewrite IH. reflexivity.
    + destruct IH as [IH|[IH [n ->]]]; rewrite IH.
      * destruct q, p; try (left; reflexivity). destruct (after d i cs); try (left; reflexivity).
        destruct (i1 <? S i0)%nat; [right; split; [reflexivity | eexists; reflexivity] | left; reflexivity].
      * right. split; [reflexivity | exists n; reflexivity].
Qed.
(** The number of responses: those there were, or as many as the highest number named by a call (also by one that fails). *)
Theorem C118_number_of_responses : forall d q l cs,
  let n := responses (after d (SyncMessage q l) cs) in
  (length l <= n)%nat /\ (forall c k, In c cs -> names_reply c k -> (k < n)%nat) /\
  ((length l < n)%nat -> exists c k, In c cs /\ names_reply c k /\ n = S k).
Proof.
  intros d q l cs. cbv zeta. induction cs as [|c cs IH] using rev_ind.
  - unfold after. cbn. split; [lia|]. split; [intros c k [] | intro H; lia].
  - assert (Sync : exists q' l', after d (SyncMessage q l) cs = SyncMessage q' l').
    { clear. induction cs as [|c cs [q' [l' IH]]] using rev_ind; [eexists; eexists; reflexivity|].
      rewrite after_snoc, IH. destruct (effect c) as [[p b]|]; [destruct p; cbn|]; eexists; eexists; reflexivity. }
    destruct Sync as [q' [l' Sy]]. rewrite after_snoc. rewrite Sy in IH |- *. cbn [responses] in IH. destruct IH as [H1 [H2 H3]].
    assert (Old : (effect c = None \/ exists p b, effect c = Some (p, b) /\ forall n, p <> PReply n) ->
      (length l <= length l')%nat /\ (forall c0 k, In c0 (cs ++ [c]) -> names_reply c0 k -> (k < length l')%nat) /\
      ((length l < length l')%nat -> exists c0 k, In c0 (cs ++ [c]) /\ names_reply c0 k /\ length l' = S k)).
    { intro Q. split; [exact H1|]. split.
      - intros c0 k I Nm. apply in_app_or in I as [I|[<-|[]]]; [exact (H2 c0 k I Nm)|].
        exfalso. destruct Nm as [[t [ct ->]]|[b [ct ->]]]; cbn [effect] in Q;
          (destruct Q as [Q|[p [b' [Q Np]]]]; [discriminate|injection Q as <- _; exact (Np k eq_refl)]).
      - intro L. destruct (H3 L) as [c0 [k [I [Nm E]]]]. exists c0, k. split; [apply in_or_app; left; exact I|]. split; assumption. }
    destruct (effect c) as [[p b]|] eqn:E; [|apply Old; left; reflexivity].
    rewrite put_responses. destruct p as [| | | |n].
    1-4: cbn [responses]; apply Old; right; eexists; eexists; (split; [reflexivity | intros; discriminate]).
    assert (Nm : names_reply c n).
    { destruct c as [p t ct|p bs ct|t]; cbn [effect] in E; try discriminate; injection E as -> _; [left|right]; eexists; eexists; reflexivity. }
    split; [lia|]. split.
    + intros c0 k I Nk. apply in_app_or in I as [I|[<-|[]]]; [pose proof (H2 c0 k I Nk); lia|].
      assert (k = n); [|lia]. destruct Nm as [[t [ct ->]]|[bs [ct ->]]], Nk as [[t' [ct' Q]]|[bs' [ct' Q]]]; congruence.
    + intro L. destruct (Nat.le_gt_cases (S n) (length l')) as [M|M].
      * rewrite Nat.max_l in * by exact M. destruct (H3 L) as [c0 [k [I [Nk Q]]]]. exists c0, k. split; [apply in_or_app; left; exact I|]. split; assumption.
      * exists c, n. split; [apply in_or_app; right; left; reflexivity|]. split; [exact Nm|]. lia.
Qed.
(** Nothing else changes: not the request line, the query, the headers, the status, the metadata or a rule. *)
Theorem C118_only_contents_change : forall d i cs, same_but_contents i (after d i cs).
Proof.
  intros d i cs. assert (H : same_but_contents i (after d i cs) /\ (responses i <= responses (after d i cs))%nat); [|apply H].
  induction cs as [|c cs [IH L]] using rev_ind.
  - split; [|unfold after; cbn; lia]. unfold after. cbn. destruct i as [q r|m|q l]; cbn; [repeat (apply conj); reflexivity | split; reflexivity | split; [split; reflexivity|]].
    intros n m' E. rewrite E. split; reflexivity.
  - rewrite after_snoc. destruct (effect c) as [[p b]|]; [|split; assumption]. split.
    + apply (rest_trans _ (after d i cs)); [intros; lia | exact IH | apply put_rest].
    + rewrite put_responses. destruct p; try exact L. destruct (after d i cs) as [q r|m|q l]; try exact L. cbn in L. lia.
Qed.

(** Reading back what was set as a text: exactly its bytes, whatever the kind of interaction. *)
Theorem C118_text_comes_back : forall d i cs p bs ct, part_of_kind p i -> is_utf8 bs -> no_nul bs ->
  let j := after d i (cs ++ [SetText p (Some bs) ct]) in
  get_text p j = Gave bs /\ get_length p j = length bs /\ get_bytes p j = Some bs.
Proof.
  intros d i cs p bs ct K U NN j.
  assert (E : body_at p j = Some (BPresent bs (type_given x lossy ct) (Some HTextual))).
  { apply (C118_last_call_wins d i cs _ [] p _ K); [|intros ? ? []]. apply st_text; [exact U | apply type_given_kept]. }
  unfold get_text, get_length, get_bytes. rewrite E. split; [|split; reflexivity].
  symmetry. apply C118_text_shown. apply sh_text; [left; reflexivity | exact U | exact NN].
Qed.
(** Reading back bytes: as bytes they are what was set, as a text they are always empty, also if they are a text. *)
Theorem C118_bytes_come_back : forall d i cs p bs ct, part_of_kind p i ->
  let j := after d i (cs ++ [SetBytes p (Some bs) ct]) in
  get_bytes p j = Some bs /\ get_length p j = length bs /\ get_text p j = Gave [].
Proof.
  intros d i cs p bs ct K j.
  assert (E : body_at p j = Some (BPresent bs (type_given x lossy ct) (Some HBinary))).
  { apply (C118_last_call_wins d i cs _ [] p _ K); [|intros ? ? []]. apply st_bytes. apply type_given_kept. }
  unfold get_text, get_length, get_bytes. rewrite E. split; [reflexivity|]. split; [reflexivity|].
  symmetry. apply C118_text_shown. apply sh_other. intros [[H|[H _]] _]; discriminate.
Qed.
Theorem C118_null_is_null : forall d i cs p ct c, part_of_kind p i -> c = SetText p None ct \/ c = SetBytes p None ct ->
  let j := after d i (cs ++ [c]) in
  body_at p j = Some BNull /\ get_text p j = Gave [] /\ get_length p j = O /\ get_bytes p j = None.
Proof.
  intros d i cs p ct c K Hc j.
  assert (E : body_at p j = Some BNull).
  { apply (C118_last_call_wins d i cs _ [] p _ K); [|intros ? ? []]. destruct Hc as [->| ->]; constructor. }
  unfold get_text, get_length, get_bytes. rewrite E. repeat split.
Qed.
(** A response that is not there is read like missing contents. *)
Theorem C118_no_such_response : forall q l n, (length l <= n)%nat ->
  get_text (PReply n) (SyncMessage q l) = Null /\ get_length (PReply n) (SyncMessage q l) = O /\ get_bytes (PReply n) (SyncMessage q l) = None.
Proof.
  intros q l n H. apply nth_error_None in H. unfold get_text, get_length, get_bytes. cbn [body_at]. rewrite H. repeat split.
Qed.

(** The description is that of the last call with a UTF-8 text; the others answer 1 and change nothing. *)
Definition says (c : set_call) (s : str) : Prop := exists bs, c = SetDescription (Some bs) /\ encodes bs s.
Definition described_as (d : str) (i : payload) (cs : list set_call) : str := fst (set_all x lossy (d, i) cs).
Lemma described_snoc : forall d i cs c, described_as d i (cs ++ [c]) =
  match c with SetDescription t => fst (set_description t (described_as d i cs)) | _ => described_as d i cs end.
Proof. intros. unfold described_as, set_all. rewrite fold_left_app. cbn [fold_left]. destruct c; reflexivity. Qed.
Theorem C118_description : forall d i earlier c later s, says c s -> (forall c' s', In c' later -> ~ says c' s') ->
  described_as d i (earlier ++ c :: later) = s /\ (no_nul (utf8 s) -> get_description s = Gave (utf8 s)).
Proof.
  intros d i earlier c later s Sc No. split.
  2:{ intro H. apply to_c_ok. intro I. apply H. apply nul_iff. exact I. }
  induction later as [|c' later IH] using rev_ind.
  - rewrite described_snoc. destruct Sc as [bs [-> E]]. apply encodes_iff in E. cbn [set_description]. rewrite E. reflexivity.
  - replace (earlier ++ c :: later ++ [c']) with ((earlier ++ c :: later) ++ [c']) by (rewrite <- app_assoc; reflexivity).
    rewrite described_snoc. rewrite (IH (fun c0 s0 I => No c0 s0 (in_or_app _ _ _ (or_introl I)))).
    destruct c' as [p t ct|p b ct|[bs|]]; try reflexivity. cbn [set_description]. destruct (from_utf8 bs) as [s'|] eqn:E; [|reflexivity].
    contradiction (No (SetDescription (Some bs)) s'); [apply in_or_app; right; left; reflexivity|].
    exists bs. split; [reflexivity | apply encodes_iff; exact E].
Qed.
Theorem C118_description_kept : forall d i cs, (forall c s, In c cs -> ~ says c s) -> described_as d i cs = d.
Proof.
  intros d i cs. induction cs as [|c cs IH] using rev_ind; intro No; [reflexivity|].
  rewrite described_snoc, (IH (fun c0 s0 I => No c0 s0 (in_or_app _ _ _ (or_introl I)))).
  destruct c as [p t ct|p b ct|[bs|]]; try reflexivity. cbn [set_description]. destruct (from_utf8 bs) as [s'|] eqn:E; [|reflexivity].
  contradiction (No (SetDescription (Some bs)) s'); [apply in_or_app; right; left; reflexivity|].
  exists bs. split; [reflexivity | apply encodes_iff; exact E].
Qed.
Theorem C118_description_result : forall t d,
  (snd (set_description t d) = 0 <-> exists bs s, t = Some bs /\ encodes bs s) /\ (snd (set_description t d) = 0 \/ snd (set_description t d) = 1).
Proof.
  intros [bs|] d; cbn [set_description].
  - destruct (from_utf8 bs) as [s|] eqn:E; cbn; (split; [|auto]); (split; [|]).
    + intros _. exists bs, s. split; [reflexivity | apply encodes_iff; exact E].
    + reflexivity.
    + discriminate.
    + intros [bs' [s [H U]]]. injection H as <-. apply encodes_iff in U. congruence.
  - cbn. split; [|auto]. split; [discriminate|]. intros [bs [s [H _]]]. discriminate.
Qed.

(** The metadata of a message: what was put in is found, under its own name only; the result says whether it was there. *)
Theorem C118_metadata : forall m kb vb k v, encodes kb k -> encodes vb v -> no_nul vb ->
  let r := insert_metadata m (Some kb) (Some vb) in
  find_metadata (fst r) (Some kb) = Gave vb /\ snd r = (if obj_has k m then (-1)%Z else 0%Z) /\
  forall k', obj_get k' (fst r) = if str_eqb k' k then Some (JStr v) else obj_get k' m.
Proof.
  intros m kb vb k v Ek Ev NN r. subst r. pose proof Ek as Ek'. pose proof Ev as Ev'.
  apply encodes_iff in Ek, Ev. cbn [insert_metadata]. rewrite Ek, Ev. cbn [fst snd].
  assert (G : forall k', obj_get k' (map_put k (JStr v) m) = if str_eqb k' k then Some (JStr v) else obj_get k' m).
  { intro k'. induction m as [|[k0 v0] m IH]; cbn [map_put obj_get]; [reflexivity|].
    destruct (str_eqb_spec k0 k) as [->|NE]; cbn [obj_get].
    - destruct (str_eqb k' k); reflexivity.
    - destruct (str_eqb_spec k' k0) as [->|NE2]; [|exact IH]. destruct (str_eqb_spec k0 k); congruence. }
  split; [|split; [reflexivity | exact G]].
  unfold find_metadata. rewrite Ek, G, str_eqb_refl. destruct Ev' as [-> _]. apply to_c_ok. intro I. apply NN. apply nul_iff. exact I.
Qed.
(** Calls with a NULL pointer or a text that is not UTF-8 change nothing and answer -2. *)
Theorem C118_metadata_refused : forall m k v,
  (forall kb vb, k = Some kb -> v = Some vb -> ~ (is_utf8 kb /\ is_utf8 vb)) -> insert_metadata m k v = (m, (-2)%Z).
Proof.
  intros m [kb|] [vb|] H; try reflexivity. cbn [insert_metadata].
  destruct (from_utf8 kb) as [k|] eqn:E1; [|reflexivity]. destruct (from_utf8 vb) as [v|] eqn:E2; [|reflexivity].
  contradiction (H kb vb eq_refl eq_refl). split; [exists k | exists v]; apply encodes_iff; assumption.
Qed.
(** A value that is no text is found as an empty text, a name that is not there is an error. *)
Theorem C118_metadata_found : forall m kb k, encodes kb k ->
  find_metadata m (Some kb) =
  match obj_get k m with
  | None => Failed
  | Some (JStr s) => to_c s
  | Some _ => Gave []
  end.
Proof.
  intros m kb k E. apply encodes_iff in E. unfold find_metadata. rewrite E. destruct (obj_get k m) as [[| | | | |]|]; reflexivity.
Qed.
(** A message is made of a body exactly if both texts are given and the type is UTF-8 and can be read. The body can be any bytes without NUL
    (the comment says that a body that is not UTF-8 gives NULL); the metadata says the type and nothing else. *)
Theorem C118_message_made : forall text ct,
  match message_from_body x text ct with
  | Gave (b, m) => exists bs cb t c, text = Some bs /\ ct = Some cb /\ encodes cb t /\ parse_mime x t = Some c /\
                     b = BPresent bs (Some c) None /\ m = [(S_ "contentType", JStr (ct_show c))]
  | Null => False
  | Failed => forall bs cb t, text = Some bs -> ct = Some cb -> encodes cb t -> parse_mime x t = None
  end.
Proof.
  intros [bs|] [cb|]; cbn [message_from_body]; try (intros; discriminate).
  destruct (from_utf8 cb) as [t|] eqn:E.
  - destruct (parse_mime x t) as [c|] eqn:P.
    + exists bs, cb, t, c. repeat (split; [first [reflexivity | assumption | apply encodes_iff; exact E]|]). reflexivity.
    + intros bs' cb' t' _ H E'. injection H as <-. apply encodes_iff in E'. congruence.
  - intros bs' cb' t' _ H E'. injection H as <-. apply encodes_iff in E'. congruence.
Qed.
(** The name of a provider state is its name, or an error when it holds a NUL character. *)
Theorem C118_state_name : forall s, (~ In 0 (st_name s) -> state_name s = Gave (utf8 (st_name s))) /\ (In 0 (st_name s) -> state_name s = Failed).
Proof. intro s. split; intro H; [apply to_c_ok | apply to_c_nul]; exact H. Qed.
Theorem C118_provider_state : forall l n, get_state l n = match nth_error l n with Some s => Gave s | None => Failed end.
Proof. reflexivity. Qed.
End Set_.
