(** C125: matching definitions through the C interface. *)
From Coq Require Import Ascii String List Arith NArith ZArith Lia Bool.
From Verif Require Import Base PathExp Json Text TextProofs MatchingRules Generators RuleExpr FfiRead DefFfi SpecDefFfi.
From Verif Require TimeFormat SpecTimeFormat PropTimeFormat PropPattern3.
Import ListNotations.
Open Scope N_scope.

(** ** Items *)
Lemma documented_iff : forall r n t, documented r n t <-> rule_id r = n /\ rule_text r = t.
Proof.
  intros r n t. split.
  - intro H. destruct H; split; reflexivity.
  - intros [<- <-]. destruct r as [r|d|d|l]; [destruct r| | |]; constructor.
Qed.
Lemma for_c_iff : forall s, for_c s <-> existsb (fun c => c =? 0) s = false.
Proof.
  intro s. unfold for_c. rewrite <- not_true_iff_false, existsb_exists. split.
  - intros H (x & I & E). apply N.eqb_eq in E. now subst.
  - intros H I. apply H. exists 0. auto.
Qed.
Lemma c_bytes_some : forall s b, c_bytes s = Some b <-> for_c s /\ b = utf8 s.
Proof.
  intros s b. rewrite for_c_iff. unfold c_bytes, to_c. destruct (existsb _ s); split; try discriminate; try (intros [X _]; discriminate).
  - intro H; injection H as <-. auto.
  - intros [_ ->]. reflexivity.
Qed.
Lemma c_bytes_none : forall s, c_bytes s = None <-> ~ for_c s.
Proof.
  intros s. rewrite for_c_iff. unfold c_bytes, to_c. destruct (existsb _ s); split; try discriminate; try reflexivity. congruence.
Qed.
Lemma shown_iff : forall r i, shown r i <-> item_of r = Some i.
Proof.
  intros r i. split.
  - intro H. destruct H as [r n D|r n t D F|name F]; cbn; try (apply documented_iff in D; destruct D as [<- D]; rewrite D).
    + reflexivity.
    + now rewrite (proj2 (c_bytes_some t (utf8 t)) (conj F eq_refl)).
    + now rewrite (proj2 (c_bytes_some name (utf8 name)) (conj F eq_refl)).
  - destruct r as [r|name]; cbn.
    + destruct (rule_text r) as [t|] eqn:T.
      * destruct (c_bytes t) as [b|] eqn:C; [|discriminate]. apply c_bytes_some in C. destruct C as [F ->]. intro H; injection H as <-. apply sh_value; [now apply documented_iff|exact F].
      * intro H; injection H as <-. apply sh_plain. now apply documented_iff.
    + destruct (c_bytes name) as [b|] eqn:C; [|discriminate]. apply c_bytes_some in C. destruct C as [F ->]. intro H; injection H as <-. now constructor.
Qed.
Lemma hides_iff : forall r, hides r <-> item_of r = None.
Proof.
  intros [r|name]; cbn.
  - split.
    + intros (n & t & D & F). apply documented_iff in D. destruct D as [_ ->]. apply c_bytes_none in F. now rewrite F.
    + destruct (rule_text r) as [t|] eqn:T; [|discriminate]. destruct (c_bytes t) eqn:C; [discriminate|]. intros _. apply c_bytes_none in C. exists (rule_id r), t. split; [now apply documented_iff|exact C].
  - rewrite <- c_bytes_none. destruct (c_bytes name); cbn; split; congruence.
Qed.
Lemma items_some : forall l is, items_of l = Some is <-> Forall2 shown l is.
Proof.
  induction l as [|r l IH]; intro is; cbn.
  - split; [intro H; injection H as <-; constructor|intro H; inversion H; reflexivity].
  - split.
    + destruct (item_of r) as [i|] eqn:I; [|discriminate]. destruct (items_of l) as [is'|] eqn:L; [|discriminate]. intro H; injection H as <-. constructor; [now apply shown_iff|now apply IH].
    + intro H. inversion H as [|? i ? is' S1 S2]; subst. apply shown_iff in S1. apply IH in S2. now rewrite S1, S2.
Qed.
Lemma items_none : forall l, items_of l = None <-> Exists hides l.
Proof.
  induction l as [|r l IH]; cbn; [split; [discriminate|intro H; inversion H]|]. rewrite Exists_cons, hides_iff, <- IH. destruct (item_of r); [|tauto]. destruct (items_of l); split; try tauto; try discriminate; intros [X|X]; discriminate.
Qed.
(** Identifiers are the documented ones, each has one meaning, and with the value they tell apart all rules without inner structure. *)
Lemma split_colon : forall a b c d, forallb is_digit a = true -> forallb is_digit c = true -> a ++ 58 :: b = c ++ 58 :: d -> a = c /\ b = d.
Proof.
  induction a as [|x a IH]; intros b [|y c] d A C E; cbn in *.
  - injection E as ->. auto.
  - injection E as <- _. discriminate.
  - injection E as -> _. discriminate.
  - injection E as -> E. apply andb_prop in A, C. destruct (IH b c d) as [-> ->]; tauto.
Qed.
Definition structured (n : N) : Prop := In n [16; 19; 22; 23].
Theorem C125_tells_apart : forall r r' n v, documented r n v -> documented r' n v -> ~ structured n -> r = r'.
Proof.
  intros r r' n v H H' NS. destruct H; inversion H'; subst; try reflexivity; try (exfalso; apply NS; cbn; tauto).
  - match goal with E : show_N _ = show_N _ |- _ => apply show_N_inj in E; congruence end.
  - match goal with E : show_N _ = show_N _ |- _ => apply show_N_inj in E; congruence end.
  - match goal with E : _ ++ _ = _ ++ _ |- _ => apply split_colon in E; [destruct E as [E1 E2]; apply show_N_inj in E1, E2; congruence|apply show_N_digits|apply show_N_digits] end.
Qed.
Theorem C125_every_rule : forall r, exists n v, documented r n v /\ 1 <= n <= 23 /\ forall n' v', documented r n' v' -> n' = n /\ v' = v.
Proof.
  intro r. exists (rule_id r), (rule_text r). split; [now apply documented_iff|]. split; [destruct r as [r|d|d|l]; [destruct r| | |]; cbn; lia|].
  intros n' v' H. apply documented_iff in H. destruct H as [<- <-]. auto.
Qed.
(** What the calls on an item show. *)
Theorem C125_items : forall r i, shown r i ->
  match r with
  | inl rule => item_rule i = Gave rule /\ item_reference i = Null /\ exists v, documented rule (item_id i) v /\ item_value i = match v with Some t => Gave (utf8 t) | None => Null end
  | inr name => item_id i = 0 /\ item_value i = Null /\ item_rule i = Null /\ item_reference i = Gave (utf8 name)
  end.
Proof. intros r i H. destruct H; cbn; eauto 6. Qed.

(** ** Histories *)
Lemma nth_set : forall A (l : list A) n x m, nth_error (set_nth l n x) m = if Nat.eqb m n then match nth_error l n with Some _ => Some x | None => None end else nth_error l m.
Proof.
  induction l as [|a l IH]; intros [|n] x [|m]; try reflexivity.
  - cbn. destruct (Nat.eqb m n); reflexivity.
  - specialize (IH n x m). unfold set_nth in *. cbn [firstn skipn app nth_error Nat.eqb]. exact IH.
Qed.
Lemma nth_more : forall A (l : list A) x n y, nth_error l n = Some y -> nth_error (l ++ [x]) n = Some y.
Proof. intros A l x n y H. rewrite nth_error_app1; [exact H|]. apply nth_error_Some. congruence. Qed.
Lemma nth_last : forall A (l : list A) x, nth_error (l ++ [x]) (length l) = Some x.
Proof. intros A l x. rewrite nth_error_app2, Nat.sub_diag by lia. reflexivity. Qed.

Section Proofs.
Variable junk : str -> nat.
Variable w : world.
Variable message : str -> str.
Variable abbreviations zones : str -> bool.
Notation step := (step junk w message abbreviations zones).
Notation runs := (runs junk w message abbreviations zones).
Notation definition_of := (definition_of junk w message).
Lemma runs_app : forall tr1 tr2 s s2, runs s (tr1 ++ tr2) s2 <-> exists s1, runs s tr1 s1 /\ runs s1 tr2 s2.
Proof.
  induction tr1 as [|i tr1 IH]; intros tr2 s s2; cbn [app].
  - split; [intro H; exists s; split; [constructor|exact H]|]. intros (s1 & H & H'). inversion H; subst. exact H'.
  - split.
    + intro H. inversion H as [|s0 c s1 r tr s3 ST R]; subst. apply IH in R. destruct R as (s4 & A & B). exists s4. split; [|exact B]. now apply runs_one with (h1 := s1).
    + intros (s1 & H & H'). inversion H as [|s0 c s3 r tr s4 ST R]; subst. apply runs_one with (h1 := s3); [exact ST|]. apply IH. eauto.
Qed.
(** What a step changes. *)
Ltac looked H := match type of H with context[lookup ?l ?d] => destruct (lookup l d); [|discriminate]; cbn in H; injection H as <- <- end.
Lemma step_defs : forall h c h' r, step h c = Some (h', r) -> forall p x, nth_error (defs h) p = Some (Some x) -> c <> DefDelete p -> nth_error (defs h') p = Some (Some x).
Proof.
  intros h c h' r H p x P NE. destruct c; cbn [DefFfi.step] in H.
  - destruct (text_of e); injection H as <- <-; [cbn; now apply nth_more|exact P].
  - looked H. exact P.
  - looked H. exact P.
  - looked H. exact P.
  - looked H. exact P.
  - destruct (lookup (defs h) d) as [[[e|v]|]|]; try (injection H as <- <-; exact P); [|discriminate]. destruct (items_of (x_rules v)); injection H as <- <-; exact P.
  - destruct (lookup (iters h) i) as [[[is n]|]|], i as [k|]; try discriminate; injection H as <- <-; exact P.
  - destruct (nth_error (defs h) d) as [[y|]|]; try discriminate. injection H as <- <-. cbn [defs]. rewrite nth_set. destruct (Nat.eqb_spec p d); [congruence|exact P].
  - destruct (nth_error (iters h) i) as [[y|]|]; try discriminate. injection H as <- <-. exact P.
  - injection H as <- <-. exact P.
Qed.
Lemma step_iters : forall h c h' r, step h c = Some (h', r) -> forall i,
  (forall is n, nth_error (iters h) i = Some (Some (is, n)) ->
     (c = IterNext (Some i) /\ r = AItem (match nth_error is n with Some x => Gave x | None => Null end) /\ nth_error (iters h') i = Some (Some (is, Datatypes.S n))) \/
     (c <> IterNext (Some i) /\ (nth_error (iters h') i = Some (Some (is, n)) \/ nth_error (iters h') i = Some None))) /\
  (nth_error (iters h) i = Some None -> c <> IterNext (Some i) /\ nth_error (iters h') i = Some None).
Proof.
  intros h c h' r H i.
  assert (SAME : (c <> IterNext (Some i)) -> (forall y, nth_error (iters h) i = Some y -> nth_error (iters h') i = Some y) ->
    (forall is n, nth_error (iters h) i = Some (Some (is, n)) ->
     (c = IterNext (Some i) /\ r = AItem (match nth_error is n with Some x => Gave x | None => Null end) /\ nth_error (iters h') i = Some (Some (is, Datatypes.S n))) \/
     (c <> IterNext (Some i) /\ (nth_error (iters h') i = Some (Some (is, n)) \/ nth_error (iters h') i = Some None))) /\
    (nth_error (iters h) i = Some None -> c <> IterNext (Some i) /\ nth_error (iters h') i = Some None)).
  { intros NE K. split; [intros is n P; right; split; [exact NE|left; now apply K]|intro P; split; [exact NE|now apply K]]. }
  destruct c; cbn [DefFfi.step] in H.
  - apply SAME; [discriminate|]. destruct (text_of e); injection H as <- <-; auto.
  - apply SAME; [discriminate|]. looked H. auto.
  - apply SAME; [discriminate|]. looked H. auto.
  - apply SAME; [discriminate|]. looked H. auto.
  - apply SAME; [discriminate|]. looked H. auto.
  - apply SAME; [discriminate|]. destruct (lookup (defs h) d) as [[[e|v]|]|]; try (injection H as <- <-; auto); [|discriminate].
    destruct (items_of (x_rules v)); injection H as <- <-; [|auto]. intros y P. cbn. now apply nth_more.
  - destruct i0 as [k|]; [|apply SAME; [discriminate|]; cbn [lookup] in H; injection H as <- <-; auto].
    unfold lookup in H. destruct (nth_error (iters h) k) as [[[is n]|]|] eqn:K; try discriminate. injection H as <- <-. cbn [iters]. rewrite nth_set, K.
    destruct (Nat.eqb_spec i k) as [->|NE].
    + rewrite K. split; [|discriminate]. intros is' n' E. injection E as <- <-. left. auto.
    + split; [intros is' n' P; right; split; [congruence|left; exact P]|intro P; split; [congruence|exact P]].
  - apply SAME; [discriminate|]. destruct (nth_error (defs h) d) as [[y|]|]; try discriminate. injection H as <- <-. auto.
  - destruct (nth_error (iters h) i0) as [[y|]|] eqn:K; try discriminate. injection H as <- <-. cbn [iters]. rewrite nth_set, K.
    split; intros; (destruct (Nat.eqb i i0); [|]).
    + right. split; [discriminate|auto].
    + right. split; [discriminate|auto].
    + split; [discriminate|auto].
    + split; [discriminate|auto].
  - apply SAME; [discriminate|]. injection H as <- <-. auto.
Qed.
Lemma kept_def : forall h tr h', runs h tr h' -> forall p x, nth_error (defs h) p = Some (Some x) -> ~ deletes p tr -> nth_error (defs h') p = Some (Some x).
Proof.
  intros h tr h' H. induction H as [h|h c h1 r tr h2 ST R IH]; intros p x P ND; [exact P|]. apply IH.
  - apply (step_defs _ _ _ _ ST p x P). intros ->. apply ND. exists r. now left.
  - intros (r' & I). apply ND. exists r'. now right.
Qed.
Lemma deleted_iter : forall h tr h', runs h tr h' -> forall i, nth_error (iters h) i = Some None -> nexts i tr = [].
Proof.
  intros h tr h' H. induction H as [h|h c h1 r tr h2 ST R IH]; intros i P; [reflexivity|]. destruct (step_iters _ _ _ _ ST i) as [_ D]. destruct (D P) as [NE P'].
  unfold nexts. cbn [flat_map fst snd]. fold (nexts i tr). rewrite (IH i P'). destruct c as [| | | | | |[j|]| | |]; try reflexivity. destruct (Nat.eqb_spec i j); [congruence|reflexivity].
Qed.
Lemma iterated : forall h tr h', runs h tr h' -> forall i is n, nth_error (iters h) i = Some (Some (is, n)) ->
  forall k r, nth_error (nexts i tr) k = Some r -> r = AItem (match nth_error is (n + k)%nat with Some x => Gave x | None => Null end).
Proof.
  intros h tr h' H. induction H as [h|h c h1 r tr h2 ST R IH]; intros i is n P k r' K; [destruct k; discriminate|].
  destruct (step_iters _ _ _ _ ST i) as [D _]. destruct (D is n P) as [(-> & -> & P')|(NE & P')].
  - unfold nexts in K. cbn [flat_map fst snd] in K. fold (nexts i tr) in K. rewrite Nat.eqb_refl in K. destruct k as [|k]; cbn in K.
    + injection K as <-. now rewrite Nat.add_0_r.
    + rewrite (IH i is _ P' k r' K). now rewrite Nat.add_succ_r.
  - assert (E : nexts i ((c, r) :: tr) = nexts i tr).
    { unfold nexts. cbn [flat_map fst snd]. destruct c as [| | | | | |[j|]| | |]; try reflexivity. destruct (Nat.eqb_spec i j); [congruence|reflexivity]. }
    rewrite E in K. destruct P' as [P'|P']; [now apply (IH i is n P')|]. rewrite (deleted_iter _ _ _ R i P') in K. destruct k; discriminate.
Qed.
Lemma definition_right : forall e d, definition_of e = inr d <-> stands_for junk w e d.
Proof.
  intros e d. unfold DefFfi.definition_of. destruct (is_matcher_def junk e) eqn:M.
  - destruct (parse_matcher_def junk w e) as [d'|] eqn:P.
    + split; [intro H; injection H as <-; now apply st_def|]. intro H; inversion H; congruence.
    + split; [discriminate|]. intro H; inversion H; congruence.
  - destruct e as [|c e]; [split; [discriminate|intro H; inversion H; congruence]|].
    split; [intro H; injection H as <-; apply st_text; [discriminate|exact M]|]. intro H; inversion H; congruence.
Qed.
Lemma definition_left : forall e, (exists m, definition_of e = inl m) <-> wrong junk w e.
Proof.
  intros e. unfold DefFfi.definition_of, wrong. destruct (is_matcher_def junk e) eqn:M.
  - destruct (parse_matcher_def junk w e) as [d'|] eqn:P.
    + split; [intros (m & H); discriminate|]. intros [->|[_ H]]; [discriminate|congruence].
    + split; [auto|]. intros _. eauto.
  - destruct e as [|c e]; [split; [auto|eauto]|]. split; [intros (m & H); discriminate|intros [H|[H _]]; discriminate].
Qed.
(** A text is taken, whatever it says; what is no text is not. *)
Theorem C125_parse : forall h e, exists h' a, step h (Parse e) = Some (h', ADef a) /\
  (a = Failed <-> forall b t, e = Some b -> from_utf8 b <> Some t) /\
  (forall b t, e = Some b -> from_utf8 b = Some t -> exists p, a = Gave p /\ nth_error (defs h) p = None /\ nth_error (defs h') p = Some (Some (definition_of t))) /\
  a <> Null /\ iters h' = iters h.
Proof.
  intros h e. cbn [DefFfi.step]. unfold text_of. destruct e as [b|].
  - destruct (from_utf8 b) as [t|] eqn:U.
    + eexists. eexists. split; [reflexivity|]. split; [split; [discriminate|intro X; exfalso; now apply (X b t)]|]. split; [|split; [discriminate|reflexivity]].
      intros b' t' E U'. injection E as <-. rewrite U in U'. injection U' as <-. exists (length (defs h)). split; [reflexivity|]. split; [apply nth_error_None; lia|apply nth_last].
    + eexists. eexists. split; [reflexivity|]. split; [split; [intros _ b' t' E; injection E as <-; congruence|reflexivity]|]. split; [intros b' t' E; injection E as <-; congruence|]. split; [discriminate|reflexivity].
  - eexists. eexists. split; [reflexivity|]. split; [split; [discriminate|reflexivity]|]. split; [discriminate|]. split; [discriminate|reflexivity].
Qed.
End Proofs.
