(** C32, C62, C63: handles of the C interface. *)
From Coq Require Import Ascii String List Arith NArith ZArith Lia Bool.
From Coq Require Import ZifyBool ZifyN ZifyNat.
From Verif Require Import Base Json ContentType Headers Query Http Merge Handles SpecHandles.
Import ListNotations.
Open Scope N_scope.
Ltac Zify.zify_post_hook ::= Z.div_mod_to_equations.

(** ** The integers *)
(** A handle stands for exactly the pact and the number it was made of. *)
Theorem C32_handle_of_a_pair : forall p n, p < 65536 -> n < 65536 ->
  handle_pact (handle_new p n) = p /\ handle_number (handle_new p n) = n /\ handle_new p n < 4294967296.
Proof. intros p n P Q. unfold handle_pact, handle_number, handle_new. lia. Qed.
Theorem C32_different_pairs : forall p n p' n', n < 65536 -> n' < 65536 ->
  handle_new p n = handle_new p' n' -> p = p' /\ n = n'.
Proof. intros p n p' n' P Q. unfold handle_new. lia. Qed.

(** ** The table *)
Lemma tab_get_set : forall t p i q, tab_get q (tab_set p i t) = if q =? p then option_map (fun _ => i) (tab_get p t) else tab_get q t.
Proof.
  induction t as [|[j u] t IH]; intros p i q; cbn [tab_set tab_get].
  - destruct (q =? p); reflexivity.
  - destruct (N.eqb_spec j p) as [->|N].
    + cbn [tab_get]. rewrite (N.eqb_sym p q). destruct (N.eqb_spec q p) as [->|]; reflexivity.
    + cbn [tab_get]. destruct (N.eqb_spec j q) as [->|M].
      * destruct (N.eqb_spec q p); [contradiction|reflexivity].
      * rewrite IH. reflexivity.
Qed.
Lemma set_nth_same : forall {A} i (v : A) l, (i < length l)%nat -> nth_error (set_nth i v l) i = Some v.
Proof. induction i as [|i IH]; intros v [|x l] L; cbn in *; try lia; [reflexivity|]. apply IH. lia. Qed.
Lemma set_nth_other : forall {A} i j (v : A) l, i <> j -> nth_error (set_nth i v l) j = nth_error l j.
Proof. induction i as [|i IH]; intros [|j] v [|x l] N; cbn; try reflexivity; try contradiction. apply IH. congruence. Qed.
Lemma set_nth_length : forall {A} i (v : A) l, length (set_nth i v l) = length l.
Proof. induction i as [|i IH]; intros v [|x l]; cbn; [reflexivity..|]. rewrite IH. reflexivity. Qed.

Lemma denotes_split : forall t h v, denotes t h v <->
  (h < 4294967296 /\ handle_number h <> 0 /\
   exists inn, tab_get (handle_pact h) t = Some inn /\ nth_error (inner_ints inn) (N.to_nat (handle_number h - 1)) = Some v).
Proof.
  intros t h v. unfold denotes, handle_pact, handle_number. split.
  - intros [p [n [inn [P [Q [-> [G E]]]]]]].
    replace (((p * 65536 + n) / 65536) mod 65536) with p by lia. replace ((p * 65536 + n) mod 65536) with n by lia.
    split; [lia|]. split; [lia|]. exists inn. split; [exact G|]. rewrite <- E. f_equal. lia.
  - intros [L [NZ [inn [G E]]]]. exists ((h / 65536) mod 65536), (h mod 65536), inn.
    split; [lia|]. split; [lia|]. split; [lia|]. split; [exact G|]. rewrite <- E. f_equal. lia.
Qed.

(** Replacing one interaction of a pact. *)
Lemma denotes_set : forall t h inn i v', h < 4294967296 -> handle_number h <> 0 ->
  tab_get (handle_pact h) t = Some inn -> i = N.to_nat (handle_number h - 1) -> (i < length (inner_ints inn))%nat ->
  let t' := tab_set (handle_pact h) (inner_with_ints inn (set_nth i v' (inner_ints inn))) t in
  denotes t' h v' /\ forall h' u, h' <> h -> (denotes t' h' u <-> denotes t h' u).
Proof.
  intros t h inn i v' L NZ G I Li t'. split.
  - apply denotes_split. split; [exact L|]. split; [exact NZ|]. eexists. split.
    + unfold t'. rewrite tab_get_set, N.eqb_refl, G. reflexivity.
    + cbn [inner_ints in_pact inner_with_ints with_ints vp_ints]. rewrite <- I. apply set_nth_same. exact Li.
  - intros h' u D. rewrite !denotes_split. unfold t'. rewrite tab_get_set.
    destruct (N.eqb_spec (handle_pact h') (handle_pact h)) as [E|N]; [|reflexivity].
    rewrite G, E. cbn [option_map]. split; intros [L' [NZ' [j [J K]]]].
    + injection J as <-. cbn [inner_ints in_pact inner_with_ints with_ints vp_ints] in K.
      rewrite set_nth_other in K; [split; [exact L'|]; split; [exact NZ'|]; exists inn; split; [exact G|exact K]|].
      unfold handle_pact, handle_number in *. lia.
    + rewrite G in J. injection J as <-.
      split; [exact L'|]. split; [exact NZ'|]. eexists. split; [reflexivity|].
      cbn [inner_ints in_pact inner_with_ints with_ints vp_ints]. rewrite set_nth_other; [exact K|].
      unfold handle_pact, handle_number in *. lia.
Qed.

(** Adding an interaction to a pact. *)
Lemma denotes_push : forall t p inn v, p < 65536 -> tab_get p t = Some inn ->
  forall h' u, denotes (tab_set p (push inn v) t) h' u <->
    (denotes t h' u \/ (count inn + 1 < 65536 /\ h' = handle_new p (count inn + 1) /\ u = v)).
Proof.
  intros t p inn v P G h' u. rewrite !denotes_split, tab_get_set. unfold count.
  destruct (N.eqb_spec (handle_pact h') p) as [E|N].
  - rewrite G. cbn [option_map]. split.
    + intros [L [NZ [j [J K]]]]. injection J as <-. unfold push in K.
      cbn [inner_ints in_pact inner_with_ints with_ints vp_ints] in K. fold (inner_ints inn) in K.
      destruct (Nat.lt_ge_cases (N.to_nat (handle_number h' - 1)) (length (inner_ints inn))) as [A|A].
      * left. rewrite nth_error_app1 in K by exact A. split; [exact L|]. split; [exact NZ|].
        exists inn. rewrite E. split; [exact G|exact K].
      * right. rewrite nth_error_app2 in K by exact A.
        destruct (N.to_nat (handle_number h' - 1) - length (inner_ints inn))%nat as [|m] eqn:M; [|destruct m; discriminate].
        cbn in K. injection K as <-. split; [|split; [|reflexivity]]; unfold handle_new, handle_pact, handle_number in *; lia.
    + intros [[L [NZ [j [J K]]]]|[C [H ->]]].
      * rewrite E, G in J. injection J as <-. split; [exact L|]. split; [exact NZ|]. eexists. split; [reflexivity|].
        unfold push. cbn [inner_ints in_pact inner_with_ints with_ints vp_ints]. fold (inner_ints inn).
        rewrite nth_error_app1; [exact K|]. apply nth_error_Some. congruence.
      * destruct (C32_handle_of_a_pair p (N.of_nat (length (inner_ints inn)) + 1) P C) as [A [B D]]. rewrite <- H in *.
        split; [exact D|]. split; [lia|]. eexists. split; [reflexivity|].
        unfold push. cbn [inner_ints in_pact inner_with_ints with_ints vp_ints]. fold (inner_ints inn).
        rewrite nth_error_app2 by lia. replace (_ - _)%nat with 0%nat by lia. reflexivity.
  - split; [intro H; left; exact H|]. intros [H|[C [H ->]]]; [exact H|].
    destruct (C32_handle_of_a_pair p (N.of_nat (length (inner_ints inn)) + 1) P C) as [A _]. rewrite <- H in A. congruence.
Qed.

(** ** C32: a call reaches the interaction its handle stands for, and no other *)
Lemma with_interaction_found : forall {R} checks t h (none : R) f v, denotes t h v ->
  exists inn, tab_get (handle_pact h) t = Some inn /\
  exists t', with_interaction checks t h none f = Ok (fst (f (in_started inn) v), t') /\
    denotes t' h (snd (f (in_started inn) v)) /\ forall h' u, h' <> h -> (denotes t' h' u <-> denotes t h' u).
Proof.
  intros R checks t h none f v D. apply denotes_split in D. destruct D as [L [NZ [inn [G E]]]].
  exists inn. split; [exact G|]. unfold with_interaction. rewrite G.
  destruct (N.eqb_spec (handle_number h) 0) as [Z|_]; [contradiction|]. cbn [andb]. rewrite E.
  destruct (f (in_started inn) v) as [r v'] eqn:F. eexists. split; [reflexivity|].
  apply denotes_set; try assumption; [reflexivity|]. apply nth_error_Some. congruence.
Qed.

Theorem C32_call_reaches_its_interaction : forall w checks t h e v, denotes t h v ->
  exists started t', do_call w checks t (CEdit h e) = Ok (fst (apply_edit w started e v), t') /\
    denotes t' h (snd (apply_edit w started e v)) /\
    forall h' u, h' <> h -> (denotes t' h' u <-> denotes t h' u).
Proof.
  intros w checks t h e v D. cbn [do_call].
  destruct (with_interaction_found checks t h (not_found e) (fun s => apply_edit w s e) v D) as [inn [G [t' [E [A B]]]]].
  exists (in_started inn), t'. split; [exact E|]. split; [exact A|exact B].
Qed.

(** The calls for messages do the same to a message and leave an HTTP interaction as it is. *)
Theorem C32_message_call_reaches_its_message : forall w checks t h e v, denotes t h v ->
  exists started t', do_call w checks t (CMessageEdit h e) = Ok (RUnit, t') /\
    (forall rq rs, v_payload v = SyncHttp rq rs -> denotes t' h v) /\
    ((forall rq rs, v_payload v <> SyncHttp rq rs) -> denotes t' h (snd (apply_edit w started e v))) /\
    forall h' u, h' <> h -> (denotes t' h' u <-> denotes t h' u).
Proof.
  intros w checks t h e v D. cbn [do_call].
  destruct (with_interaction_found checks t h RUnit (fun started v => if is_message v then (RUnit, snd (apply_edit w started e v)) else (RUnit, v)) v D) as [inn [G [t' [E [A B]]]]].
  exists (in_started inn), t'. unfold is_message in *. destruct (v_payload v) as [rq rs|?|? ?] eqn:P; cbn [fst snd] in *; (split; [exact E|]; split; [|split; [|exact B]]).
  - intros _ _ _. exact A.
  - intro N. destruct (N rq rs eq_refl).
  - intros ? ? X. discriminate X.
  - intros _. exact A.
  - intros ? ? X. discriminate X.
  - intros _. exact A.
Qed.

(** A handle that stands for nothing (and whose number is not zero) is reported and changes nothing. *)
Theorem C32_unknown_handle : forall w checks t h e, h < 4294967296 -> handle_number h <> 0 ->
  (forall v, ~ denotes t h v) -> do_call w checks t (CEdit h e) = Ok (not_found e, t).
Proof.
  intros w checks t h e L NZ N. cbn [do_call]. unfold with_interaction.
  destruct (tab_get (handle_pact h) t) as [inn|] eqn:G; [|reflexivity].
  destruct (N.eqb_spec (handle_number h) 0) as [Z|_]; [contradiction|]. cbn [andb].
  destruct (nth_error (inner_ints inn) (N.to_nat (handle_number h - 1))) as [v|] eqn:E; [|reflexivity].
  destruct (N v). apply denotes_split. split; [exact L|]. split; [exact NZ|]. exists inn. split; [exact G|exact E].
Qed.

(** The handle with number zero that failed calls return: using it panics if the library is
    built with overflow checks and the pact exists; otherwise it reports an error, unless the
    pact has more than 65535 interactions. *)
Theorem C32_number_zero : forall w t p e inn, p < 65536 -> tab_get p t = Some inn ->
  do_call w true t (CEdit (handle_new p 0) e) = Panic /\
  (count inn <= 65535 -> do_call w false t (CEdit (handle_new p 0) e) = Ok (not_found e, t)).
Proof.
  intros w t p e inn P G. destruct (C32_handle_of_a_pair p 0 P) as [A [B _]]; [lia|].
  cbn [do_call]. unfold with_interaction. rewrite A, B, G, N.eqb_refl. cbn [andb]. split; [reflexivity|].
  intro C. unfold count in C. destruct (nth_error (inner_ints inn) (N.to_nat 65535)) as [v|] eqn:E; [|reflexivity].
  assert (X : (N.to_nat 65535 < length (inner_ints inn))%nat) by (apply nth_error_Some; congruence). lia.
Qed.

(** ** C62: what handles stand for in the course of a program *)
Lemma find_description_some : forall d l i, find_description d l = Some i ->
  (i < length l)%nat /\ exists v, nth_error l i = Some v /\ v_desc v = d /\
  forall j u, (j < i)%nat -> nth_error l j = Some u -> v_desc u <> d.
Proof.
  induction l as [|x l IH]; intros i H; cbn [find_description] in H; [discriminate|].
  destruct (str_eqb_spec (v_desc x) d) as [E|N].
  - injection H as <-. split; [cbn; lia|]. exists x. split; [reflexivity|]. split; [exact E|]. intros j u J. lia.
  - destruct (find_description d l) as [k|]; [|discriminate]. injection H as <-.
    destruct (IH k eq_refl) as [L [v [A [B C]]]]. split; [cbn; lia|]. exists v. split; [exact A|]. split; [exact B|].
    intros [|j] u J K; cbn in K; [injection K as <-; exact N|]. apply (C j u); [lia|exact K].
Qed.
Lemma find_description_none : forall d l, find_description d l = None -> forall v, In v l -> v_desc v <> d.
Proof.
  induction l as [|x l IH]; intros H v I; [destruct I|]. cbn [find_description] in H.
  destruct (str_eqb_spec (v_desc x) d) as [E|N]; [discriminate|].
  destruct (find_description d l); [discriminate|]. destruct I as [<-|I]; [exact N|]. apply IH; [reflexivity|exact I].
Qed.

(** Creating an interaction in a pact with fewer than 65535 gives a handle that stands for a
    new interaction with that description; all other handles stand for what they did. *)
Theorem C62_created : forall w checks t k p d inn, p < 65536 -> tab_get p t = Some inn -> count inn < 65535 ->
  exists h t', do_call w checks t (CNewInteraction k p (Some d)) = Ok (RHandle h, t') /\
    denotes t' h (new_int k d) /\ v_desc (new_int k d) = d /\ v_states (new_int k d) = [] /\
    forall h' u, h' <> h -> (denotes t' h' u <-> denotes t h' u).
Proof.
  intros w checks t k p d inn P G C. cbn [do_call]. rewrite G.
  destruct (find_description d (inner_ints inn)) as [i|] eqn:F.
  - destruct (find_description_some _ _ _ F) as [L _].
    assert (U : as_u16 (N.of_nat i + 1) = N.of_nat i + 1) by (unfold as_u16, count in *; lia).
    destruct (C32_handle_of_a_pair p (N.of_nat i + 1) P) as [A [B D]]; [unfold count in C; lia|].
    eexists _, _. split; [reflexivity|]. rewrite U.
    destruct (denotes_set t (handle_new p (N.of_nat i + 1)) inn i (new_int k d) D) as [X Y];
      [lia|rewrite A; exact G|rewrite B; lia|exact L|]. rewrite A in X, Y.
    split; [exact X|]. split; [reflexivity|]. split; [reflexivity|exact Y].
  - assert (U : as_u16 (count inn + 1) = count inn + 1) by (unfold as_u16 in *; lia).
    eexists _, _. split; [reflexivity|]. rewrite U. rewrite denotes_push by assumption.
    split; [right; split; [lia|split; reflexivity]|]. split; [reflexivity|]. split; [reflexivity|].
    intros h' u N. rewrite denotes_push by assumption. split; [|tauto]. intros [H|[_ [H _]]]; [exact H|contradiction].
Qed.

(** The same for the messages, which are added whatever their descriptions. *)
Theorem C62_created_message : forall w checks t p d inn, p < 65536 -> tab_get p t = Some inn -> count inn < 65535 ->
  forall c, c = CNewMessage p (Some d) \/ c = CNewAsyncMessage p (Some d) ->
  exists h t', do_call w checks t c = Ok (RHandle h, t') /\
    denotes t' h (new_int KAsync d) /\ (forall v, ~ denotes t h v) /\
    forall h' u, h' <> h -> (denotes t' h' u <-> denotes t h' u).
Proof.
  intros w checks t p d inn P G C c E.
  exists (handle_new p (count inn + 1)), (tab_set p (push inn (new_int KAsync d)) t). split.
  - destruct E as [-> | ->]; cbn [do_call]; rewrite G.
    + replace (as_u16 (count inn + 1)) with (count inn + 1) by (unfold as_u16; lia). reflexivity.
    + unfold handle_new_v4. replace ((count inn + 1) mod 4294967296) with (count inn + 1) by lia.
      destruct (N.ltb_spec (p * 65536 + (count inn + 1)) 4294967296); [reflexivity|lia].
  - split; [apply denotes_push; try assumption; right; split; [lia|split; reflexivity]|]. split.
    + intros v D. apply denotes_split in D. destruct D as [_ [_ [j [J K]]]].
      destruct (C32_handle_of_a_pair p (count inn + 1) P) as [A [B _]]; [lia|]. rewrite A, G in J. injection J as <-.
      rewrite B in K. assert (X : (N.to_nat (count inn + 1 - 1) < length (inner_ints inn))%nat) by (apply nth_error_Some; congruence).
      unfold count in X. lia.
    + intros h' u N. rewrite denotes_push by assumption. split; [|tauto]. intros [H|[_ [H _]]]; [exact H|contradiction].
Qed.

Lemma tab_get_remove : forall t p q, q <> p -> tab_get q (tab_remove p t) = tab_get q t.
Proof.
  induction t as [|[j u] t IH]; intros p q N; [reflexivity|]. cbn [tab_remove].
  destruct (N.eqb_spec j p) as [->|M]; cbn [tab_get].
  - destruct (N.eqb_spec p q); [congruence|reflexivity].
  - destruct (j =? q); [reflexivity|apply IH; exact N].
Qed.

Lemma denotes_same_ints : forall t p inn inn' h v, tab_get p t = Some inn -> inner_ints inn' = inner_ints inn ->
  (denotes (tab_set p inn' t) h v <-> denotes t h v).
Proof.
  intros t p inn inn' h v G E. rewrite !denotes_split, tab_get_set.
  destruct (N.eqb_spec (handle_pact h) p) as [->|N]; [|reflexivity]. rewrite G. cbn [option_map].
  split; intros [L [NZ [j [J K]]]]; injection J as <-; (split; [exact L|]); (split; [exact NZ|]); eexists;
    (split; [reflexivity|]); congruence.
Qed.

Lemma with_interaction_keeps : forall {R} checks t h0 (none : R) f r t' h v, h0 < 4294967296 ->
  with_interaction checks t h0 none f = Ok (r, t') -> denotes t h v ->
  (exists v', denotes t' h v') /\ (h0 <> h -> denotes t' h v).
Proof.
  intros R checks t h0 none f r t' h v P H D. unfold with_interaction in H.
  destruct (tab_get (handle_pact h0) t) as [inn|] eqn:G; [|injection H as <- <-; split; [exists v|intros _]; exact D].
  destruct ((handle_number h0 =? 0) && checks); [discriminate|].
  remember (N.to_nat (if handle_number h0 =? 0 then 65535 else handle_number h0 - 1)) as i eqn:I.
  destruct (nth_error (inner_ints inn) i) as [x|] eqn:X; [|injection H as <- <-; split; [exists v|intros _]; exact D].
  destruct (f (in_started inn) x) as [r' x']. injection H as <- <-.
  assert (Li : (i < length (inner_ints inn))%nat) by (apply nth_error_Some; congruence).
  apply denotes_split in D. destruct D as [L [NZ [j [J K]]]].
  assert (Y : denotes (tab_set (handle_pact h0) (inner_with_ints inn (set_nth i x' (inner_ints inn))) t) h
                (if h0 =? h then x' else v)).
  { apply denotes_split. split; [exact L|]. split; [exact NZ|]. rewrite tab_get_set.
    destruct (N.eqb_spec (handle_pact h) (handle_pact h0)) as [E|N].
    - rewrite G. cbn [option_map]. eexists. split; [reflexivity|].
      cbn [inner_ints in_pact inner_with_ints with_ints vp_ints]. rewrite E, G in J. injection J as <-.
      destruct (N.eqb_spec h0 h) as [->|N].
      + replace (N.to_nat (handle_number h - 1)) with i; [apply set_nth_same; exact Li|].
        rewrite I. destruct (N.eqb_spec (handle_number h) 0); [contradiction|reflexivity].
      + rewrite set_nth_other; [exact K|]. rewrite I. destruct (N.eqb_spec (handle_number h0) 0) as [Z|Z];
          unfold handle_pact, handle_number in *; lia.
    - exists j. split; [exact J|]. destruct (N.eqb_spec h0 h) as [->|_]; [destruct (N eq_refl)|exact K]. }
  split; [eexists; exact Y|]. intro N. destruct (N.eqb_spec h0 h); [contradiction|exact Y].
Qed.

(** One call. *)
Lemma step_keeps : forall w checks t c r t' h v, proper t c -> do_call w checks t c = Ok (r, t') -> denotes t h v ->
  does_not_free (handle_pact h) c ->
  (exists v', denotes t' h v') /\ (leaves_alone h v c -> denotes t' h v).
Proof.
  intros w checks t c r t' h v P H D F. destruct c as [cn pn id|k p [d|]|p [d|]|p [d|]|h0 e|h0 e|p vs|p|p];
    cbn [do_call proper does_not_free leaves_alone] in *.
  - injection H as <- <-. destruct P as [P Q].
    assert (X : denotes ((id, mkInner (mkV4P (mkWho (opt_or cn (S_ "Consumer")) (opt_or pn (S_ "Provider"))) [] [] []) false 3) :: t) h v).
    { apply denotes_split. apply denotes_split in D. destruct D as [L [NZ [j [J K]]]]. split; [exact L|]. split; [exact NZ|].
      exists j. split; [|exact K]. cbn [tab_get]. destruct (N.eqb_spec id (handle_pact h)); [congruence|exact J]. }
    split; [exists v; exact X|intros _; exact X].
  - destruct (tab_get p t) as [inn|] eqn:G; [|injection H as <- <-; split; [exists v|intros _]; exact D].
    destruct (find_description d (inner_ints inn)) as [i|] eqn:Fd; injection H as <- <-.
    + destruct (find_description_some _ _ _ Fd) as [Li [x [Nx [Dx _]]]].
      apply denotes_split in D. destruct D as [L [NZ [j [J K]]]].
      assert (Y : denotes (tab_set p (inner_with_ints inn (set_nth i (new_int k d) (inner_ints inn))) t) h
                    (if (handle_pact h =? p) && Nat.eqb (N.to_nat (handle_number h - 1)) i then new_int k d else v)).
      { apply denotes_split. split; [exact L|]. split; [exact NZ|]. rewrite tab_get_set.
        destruct (N.eqb_spec (handle_pact h) p) as [E|N]; [|exists j; split; [exact J|exact K]].
        rewrite G. cbn [option_map]. eexists. split; [reflexivity|].
        cbn [inner_ints in_pact inner_with_ints with_ints vp_ints].
        destruct (Nat.eqb_spec (N.to_nat (handle_number h - 1)) i) as [E2|N2]; cbn [andb].
        - rewrite E2. apply set_nth_same. exact Li.
        - rewrite set_nth_other by congruence. rewrite E, G in J. injection J as <-. exact K. }
      split; [eexists; exact Y|]. intro Lv.
      destruct (N.eqb_spec (handle_pact h) p) as [E|N]; [|exact Y].
      destruct (Nat.eqb_spec (N.to_nat (handle_number h - 1)) i) as [E2|N2]; [|exact Y].
      exfalso. rewrite E, G in J. injection J as <-. rewrite E2, Nx in K. injection K as ->. exact (Lv E (eq_sym Dx)).
    + assert (Y : denotes (tab_set p (push inn (new_int k d)) t) h v) by (apply denotes_push; [exact P|exact G|left; exact D]).
      split; [exists v; exact Y|intros _; exact Y].
  - injection H as <- <-. split; [exists v|intros _]; exact D.
  - destruct (tab_get p t) as [inn|] eqn:G; injection H as <- <-; [|split; [exists v|intros _]; exact D].
    assert (Y : denotes (tab_set p (push inn (new_int KAsync d)) t) h v) by (apply denotes_push; [exact P|exact G|left; exact D]).
    split; [exists v; exact Y|intros _; exact Y].
  - injection H as <- <-. split; [exists v|intros _]; exact D.
  - destruct (tab_get p t) as [inn|] eqn:G; [|injection H as <- <-; split; [exists v|intros _]; exact D].
    destruct (handle_new_v4 checks p (count inn + 1)) as [hh|?|] eqn:V; try discriminate. injection H as <- <-.
    assert (Y : denotes (tab_set p (push inn (new_int KAsync d)) t) h v) by (apply denotes_push; [exact P|exact G|left; exact D]).
    split; [exists v; exact Y|intros _; exact Y].
  - injection H as <- <-. split; [exists v|intros _]; exact D.
  - exact (with_interaction_keeps _ _ _ _ _ _ _ _ _ P H D).
  - exact (with_interaction_keeps _ _ _ _ _ _ _ _ _ P H D).
  - destruct (tab_get p t) as [inn|] eqn:G; injection H as <- <-; [|split; [exists v|intros _]; exact D].
    assert (Y : denotes (tab_set p (mkInner (in_pact inn) (in_started inn) vs) t) h v)
      by (apply (denotes_same_ints t p inn); [exact G|reflexivity|exact D]).
    split; [exists v|intros _]; exact Y.
  - destruct (tab_get p t) as [inn|] eqn:G; injection H as <- <-; [|split; [exists v|intros _]; exact D].
    assert (Y : denotes (tab_set p (mkInner (in_pact inn) true (in_spec inn)) t) h v)
      by (apply (denotes_same_ints t p inn); [exact G|reflexivity|exact D]).
    split; [exists v|intros _]; exact Y.
  - assert (Y : denotes t' h v).
    { destruct (tab_get p t) as [inn|] eqn:G; injection H as <- <-; [|exact D].
      apply denotes_split. apply denotes_split in D. destruct D as [L [NZ [j [J K]]]]. split; [exact L|]. split; [exact NZ|].
      exists j. split; [|exact K]. rewrite tab_get_remove by congruence. exact J. }
    split; [exists v|intros _]; exact Y.
Qed.

(** A handle that stands for an interaction does so after any history of calls that does not
    free its pact, ... *)
Theorem C62_still_there : forall w checks t cs t' h v,
  history w checks t cs t' -> denotes t h v -> Forall (does_not_free (handle_pact h)) cs ->
  exists v', denotes t' h v'.
Proof.
  intros w checks t cs t' h v H. revert v. induction H as [t|t c r t1 cs t2 P E H IH]; intros v D F; [exists v; exact D|].
  inversion F as [|? ? F1 F2]; subst. destruct (step_keeps _ _ _ _ _ _ _ _ P E D F1) as [[v' D'] _]. exact (IH v' D' F2).
Qed.
(** ... and the same interaction if no call uses the handle or creates an interaction with its description. *)
Theorem C62_untouched : forall w checks t cs t' h v,
  history w checks t cs t' -> denotes t h v -> Forall (leaves_alone h v) cs -> denotes t' h v.
Proof.
  intros w checks t cs t' h v H. induction H as [t|t c r t1 cs t2 P E H IH]; intros D F; [exact D|].
  inversion F as [|? ? F1 F2]; subst. apply IH; [|exact F2].
  refine (proj2 (step_keeps _ _ _ _ _ _ _ _ P E D _) F1). destruct c; cbn [does_not_free leaves_alone] in *; try exact I. congruence.
Qed.

(** Creating an interaction with a description that just one interaction of the pact has gives
    the handle of that one again. *)
Theorem C62_same_description_same_handle : forall w checks t k p d h v,
  denotes t h v -> handle_pact h = p -> v_desc v = d ->
  (forall h' v', denotes t h' v' -> handle_pact h' = p -> v_desc v' = d -> h' = h) ->
  exists t', do_call w checks t (CNewInteraction k p (Some d)) = Ok (RHandle h, t').
Proof.
  intros w checks t k p d h v D <- Dv U. apply denotes_split in D. destruct D as [L [NZ [inn [G K]]]].
  cbn [do_call]. rewrite G. destruct (find_description d (inner_ints inn)) as [i|] eqn:F.
  - destruct (find_description_some _ _ _ F) as [Li [x [Nx [Dx Ff]]]].
    assert (I : (i <= N.to_nat (handle_number h - 1))%nat).
    { destruct (Nat.le_gt_cases i (N.to_nat (handle_number h - 1))) as [X|X]; [exact X|]. destruct (Ff _ _ X K Dv). }
    assert (P : handle_pact h < 65536) by (unfold handle_pact; lia).
    assert (Q : N.of_nat i + 1 < 65536) by (unfold handle_number in *; lia).
    destruct (C32_handle_of_a_pair (handle_pact h) (N.of_nat i + 1) P Q) as [A [B C]].
    assert (E : handle_new (handle_pact h) (N.of_nat i + 1) = h).
    { apply (U _ x); [|exact A|exact Dx]. apply denotes_split. split; [exact C|]. split; [lia|].
      exists inn. rewrite A. split; [exact G|]. rewrite B. replace (N.to_nat (N.of_nat i + 1 - 1)) with i by lia. exact Nx. }
    eexists. unfold as_u16. rewrite N.mod_small by exact Q. rewrite E. reflexivity.
  - exfalso. apply nth_error_In in K. exact (find_description_none _ _ F v K Dv).
Qed.

(** ** Limits *)
(** With 65535 interactions or more the number of a new one is cut to 16 bits: the handle has
    the number zero, or is the handle of an earlier interaction. *)
Theorem C62_why_65535 : forall w checks t k p d inn, p < 65536 -> tab_get p t = Some inn ->
  (forall v, In v (inner_ints inn) -> v_desc v <> d) ->
  exists h t', do_call w checks t (CNewInteraction k p (Some d)) = Ok (RHandle h, t') /\
    h = handle_new p ((count inn + 1) mod 65536) /\ (65535 <= count inn -> ~ denotes t' h (new_int k d)).
Proof.
  intros w checks t k p d inn P G U. cbn [do_call]. rewrite G.
  destruct (find_description d (inner_ints inn)) as [i|] eqn:F.
  { destruct (find_description_some _ _ _ F) as [Li [x [Nx [Dx _]]]]. apply nth_error_In in Nx. destruct (U _ Nx Dx). }
  eexists _, _. split; [reflexivity|]. split; [reflexivity|]. intros C D. apply denotes_push in D; [|exact P|exact G].
  destruct D as [D|[X _]]; [|lia]. apply denotes_split in D. destruct D as [_ [_ [j [J K]]]].
  assert (M : (count inn + 1) mod 65536 < 65536) by lia.
  destruct (C32_handle_of_a_pair p _ P M) as [A _]. unfold as_u16 in J. rewrite A, G in J. injection J as <-.
  apply nth_error_In in K. apply (U _ K). reflexivity.
Qed.
(** The number of a message made with the deprecated call spills into the number of the pact:
    the handle stands for an interaction of another pact, if there is one. *)
Theorem C62_why_65535_messages : forall w checks t p d inn, p + 1 < 65536 -> tab_get p t = Some inn ->
  65536 <= count inn + 1 < 131072 ->
  exists h t', do_call w checks t (CNewAsyncMessage p (Some d)) = Ok (RHandle h, t') /\
    handle_pact h = p + 1 /\ handle_number h = count inn + 1 - 65536.
Proof.
  intros w checks t p d inn P G C. cbn [do_call]. rewrite G. unfold handle_new_v4.
  replace ((count inn + 1) mod 4294967296) with (count inn + 1) by lia.
  destruct (N.ltb_spec (p * 65536 + (count inn + 1)) 4294967296); [|lia].
  eexists _, _. split; [reflexivity|]. unfold handle_pact, handle_number. lia.
Qed.
(** Handles of a freed pact stand for nothing, until a new pact gets the same number. *)
Theorem C62_freed : forall w checks t p inn, tab_get p t = Some inn -> NoDup (map fst t) ->
  exists t', do_call w checks t (CFree p) = Ok (RCode 0, t') /\
    (forall h v, handle_pact h = p -> ~ denotes t' h v) /\
    forall c pr, p < 65536 -> proper t' (CNewPact c pr p).
Proof.
  intros w checks t p inn G ND. cbn [do_call]. rewrite G. eexists. split; [reflexivity|].
  assert (X : tab_get p (tab_remove p t) = None).
  { clear G. induction t as [|[j u] t IH]; [reflexivity|]. cbn [tab_remove map] in *. inversion ND as [|? ? A B]; subst.
    destruct (N.eqb_spec j p) as [->|N].
    - cbn [fst] in A. clear -A. induction t as [|[j v] t IH]; [reflexivity|]. cbn [tab_get map] in *.
      destruct (N.eqb_spec j p) as [->|N]; [destruct A; left; reflexivity|]. apply IH. intro H. apply A. right. exact H.
    - cbn [tab_get]. destruct (N.eqb_spec j p); [contradiction|]. apply IH. exact B. }
  split; [|intros c pr P; split; [exact P|exact X]].
  intros h v E D. apply denotes_split in D. destruct D as [_ [_ [j [J _]]]]. rewrite E, X in J. discriminate.
Qed.
(** The table of a program has every pact once, as the theorem above assumes. *)
Lemma tab_set_keys : forall t p i, map fst (tab_set p i t) = map fst t.
Proof.
  intros t p i. induction t as [|[j u] t IH]; [reflexivity|]. cbn [tab_set].
  destruct (j =? p); [reflexivity|]. cbn [map fst]. f_equal. exact IH.
Qed.
Lemma tab_get_none : forall t p, tab_get p t = None -> ~ In p (map fst t).
Proof.
  induction t as [|[j u] t IH]; intros p H; [intros []|]. cbn [tab_get] in H. destruct (N.eqb_spec j p) as [|N]; [discriminate|].
  intros [E|I]; [exact (N E)|exact (IH p H I)].
Qed.
Theorem C62_pacts_once : forall w checks cs t, history w checks [] cs t -> NoDup (map fst t).
Proof.
  assert (G : forall w checks t cs t', history w checks t cs t' -> NoDup (map fst t) -> NoDup (map fst t')).
  { intros w checks t cs t' H. induction H as [t|t c r t1 cs t2 P E H IH]; intro N; [exact N|]. apply IH. clear IH H.
    assert (WI : forall R (none : R) h f r t', with_interaction checks t h none f = Ok (r, t') -> map fst t' = map fst t).
    { intros R none h f r' t' X. unfold with_interaction in X. destruct (tab_get (handle_pact h) t); [|injection X as <- <-; reflexivity].
      destruct (_ && checks); [discriminate|]. destruct (nth_error _ _); [|injection X as <- <-; reflexivity].
      destruct (f _ _). injection X as <- <-. apply tab_set_keys. }
    destruct c as [cn pn id|k p [d|]|p [d|]|p [d|]|h0 e|h0 e|p vs|p|p]; cbn [do_call proper] in *;
      try (injection E as <- <-; exact N);
      try (apply WI in E; rewrite E; exact N);
      try (destruct (tab_get p t) as [inn|] eqn:G; [|injection E as <- <-; exact N]).
    - injection E as <- <-. cbn [map fst]. constructor; [apply tab_get_none, P|exact N].
    - destruct (find_description d (inner_ints inn)); injection E as <- <-; rewrite tab_set_keys; exact N.
    - injection E as <- <-. rewrite tab_set_keys. exact N.
    - destruct (handle_new_v4 checks p (count inn + 1)); try discriminate. injection E as <- <-. rewrite tab_set_keys. exact N.
    - injection E as <- <-. rewrite tab_set_keys. exact N.
    - injection E as <- <-. rewrite tab_set_keys. exact N.
    - injection E as <- <-. clear -N. induction t as [|[j u] t IH]; [constructor|]. cbn [tab_remove map] in *.
      inversion N as [|? ? A B]; subst. destruct (j =? p); [exact B|]. cbn [map fst]. constructor; [|apply IH; exact B].
      intro I. apply A. clear -I. induction t as [|[i v] t IH]; [exact I|]. cbn [tab_remove map] in *.
      destruct (i =? p); [right; exact I|]. cbn [map fst] in *. destruct I as [E|I]; [left; exact E|right; apply IH; exact I]. }
  intros w checks cs t H. apply (G _ _ _ _ _ H). constructor.
Qed.

(** ** C63: calls after the mock server was started *)
(** The calls that report that a started pact cannot be modified change the interaction all the
    same, just as if it was not started; only the test name is really refused. *)
Theorem C63_refused_but_done : forall w e v,
  (forall s, e <> ETestName s) ->
  snd (apply_edit w true e v) = snd (apply_edit w false e v) /\
  (fst (apply_edit w true e v) = fst (apply_edit w false e v) \/
   fst (apply_edit w true e v) = RBool false \/ fst (apply_edit w true e v) = RCode 1).
Proof.
  intros w e v N. destruct e as [d|d|d n x|d ps|s|m p|n i x|[] n i x|[] n x|s|k|b|key [j|]|s];
    cbn [apply_edit]; try (split; [reflexivity|]; auto; fail); try (destruct (N s eq_refl));
    unfold on_http; destruct (v_payload v) as [q r|?|? ?]; cbn [fst snd negb]; auto.
Qed.
Theorem C63_test_name : forall w s v,
  apply_edit w true (ETestName s) v = (RCode 3, v) /\
  x_comments (v_extra (snd (apply_edit w false (ETestName s) v))) = map_put (S_ "testname") (JStr s) (x_comments (v_extra v)).
Proof. intros. split; reflexivity. Qed.

(** ** Examples *)
Example C62_example : forall w, exists t h1 h2,
  history w true [] [CNewPact None None 7; CNewInteraction KHttp 7 (Some (S_ "a")); CNewInteraction KAsync 7 (Some (S_ "b"));
                     CEdit 458753 (EStatus 404)] t /\
  h1 = 458753 /\ h2 = 458754 /\ denotes t h2 (new_int KAsync (S_ "b")) /\
  (exists v, denotes t h1 v /\ v_payload v = SyncHttp default_request (mkResp 404 None BMissing [])) /\
  leaves_alone h2 (new_int KAsync (S_ "b")) (CEdit h1 (EStatus 404)).
Proof.
  intro w. eexists _, _, _. split.
  - eapply h_cons; [split; [lia|reflexivity]|reflexivity|]. eapply h_cons; [cbn; lia|reflexivity|].
    eapply h_cons; [cbn; lia|reflexivity|]. eapply h_cons; [cbn; lia|reflexivity|]. constructor.
  - split; [reflexivity|]. split; [reflexivity|]. split.
    + exists 7, 2. eexists. split; [lia|]. split; [lia|]. split; [reflexivity|]. split; reflexivity.
    + split; [|cbn; lia]. eexists. split.
      * exists 7, 1. eexists. split; [lia|]. split; [lia|]. split; [reflexivity|]. split; reflexivity.
      * reflexivity.
Qed.
