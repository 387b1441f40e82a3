(** Proofs about the lexers and the common part of the parsers of date and time expressions. *)
From Coq Require Import Ascii String List Arith NArith ZArith Lia Bool.
From Verif Require Import Base Json Text TextProofs DateExpr SpecDateText.
Import ListNotations.
Open Scope N_scope.

Lemma prefixed_iff : forall p s, prefixed p s = true <-> begins p s.
Proof.
  induction p as [|a p IH]; intro s; cbn [prefixed].
  - split; [intros _; exists s; reflexivity|reflexivity].
  - destruct s as [|b s].
    + split; [discriminate|intros [q E]; discriminate].
    + rewrite andb_true_iff, N.eqb_eq, IH. split.
      * intros [-> [q ->]]. exists q. reflexivity.
      * intros [q E]. injection E as -> ->. split; [reflexivity|exists q; reflexivity].
Qed.
Lemma begins_length : forall p q s, begins p s -> begins q s -> length p = length q -> p = q.
Proof.
  induction p as [|a p IH]; intros [|b q] s [x ->] [y E] L; try discriminate; [reflexivity|]. injection E as -> E.
  f_equal. apply (IH q (p ++ x)); [exists x; reflexivity|exists y; exact E|]. injection L as L. exact L.
Qed.
Lemma begins_app_skip : forall v s, begins v s -> s = v ++ skipn (length v) s.
Proof. intros v s [q ->]. rewrite skipn_app, skipn_all, Nat.sub_diag. reflexivity. Qed.

(** * The longest word *)
Section Longest.
Context {T : Type}.
Lemma longest_go : forall (words : list (str * T)) s best,
  match fold_left (fun best e => if prefixed (fst e) s && (match best with Some b => length (fst b) <? length (fst e) | None => true end)%nat then Some e else best) words best with
  | Some e => (In e words /\ begins (fst e) s \/ best = Some e) /\ (forall e', In e' words -> begins (fst e') s -> (length (fst e') <= length (fst e))%nat) /\
              (forall e', best = Some e' -> (length (fst e') <= length (fst e))%nat)
  | None => best = None /\ forall e', In e' words -> ~ begins (fst e') s
  end.
Proof.
  induction words as [|e words IH]; intros s best; cbn [fold_left].
  - destruct best as [b|]; [|split; [reflexivity|intros ? []]]. split; [right; reflexivity|]. split; [intros ? []|]. intros e' E. injection E as <-. lia.
  - match goal with |- context [fold_left _ words ?b] => set (best' := b) end. specialize (IH s best').
    destruct (fold_left _ words best') as [r|] eqn:F.
    + destruct IH as (A & B & C). destruct (prefixed (fst e) s && match best with Some b => (length (fst b) <? length (fst e))%nat | None => true end) eqn:Q; unfold best' in A, C.
      * apply andb_true_iff in Q. destruct Q as [Q1 Q2]. apply prefixed_iff in Q1. pose proof (C e eq_refl) as Le. repeat (match goal with |- _ /\ _ => split end).
        -- destruct A as [[A1 A2]|A]; [left; split; [right; exact A1|exact A2]|]. injection A as <-. left. split; [left; reflexivity|exact Q1].
        -- intros e' [<- |i] Bg; [exact Le|apply B; assumption].
        -- intros e' E. rewrite E in Q2. apply Nat.ltb_lt in Q2. apply Nat.lt_le_incl. exact (Nat.lt_le_trans _ _ _ Q2 Le).
      * repeat (match goal with |- _ /\ _ => split end).
        -- destruct A as [[A1 A2]|A]; [left; split; [right; exact A1|exact A2]|right; exact A].
        -- intros e' [<- |i] Bg; [|apply B; assumption]. apply prefixed_iff in Bg. rewrite Bg in Q. cbn [andb] in Q. destruct best as [b|]; [|discriminate].
           apply Nat.ltb_ge in Q. exact (Nat.le_trans _ _ _ Q (C b eq_refl)).
        -- exact C.
    + destruct IH as [A B]. unfold best' in A. destruct (prefixed (fst e) s && match best with Some b => (length (fst b) <? length (fst e))%nat | None => true end) eqn:Q; [discriminate|].
      split; [exact A|]. intros e' [<- |i]; [|apply B, i]. intro Bg. apply prefixed_iff in Bg. rewrite Bg, A in Q. discriminate.
Qed.
Lemma longest_some : forall (words : list (str * T)) s v t, NoDup (map fst words) ->
  (longest words s = Some (v, t) <-> In (v, t) words /\ begins v s /\ forall v', In v' (map fst words) -> begins v' s -> (length v' <= length v)%nat).
Proof.
  intros words s v t ND. unfold longest. pose proof (longest_go words s None) as G.
  destruct (fold_left _ words None) as [e|] eqn:F.
  - destruct G as ([[A1 A2]|A] & B & _); [|discriminate]. split.
    + intro E. injection E as ->. cbn [fst] in *. split; [exact A1|]. split; [exact A2|]. intros v' i Bg. apply in_map_iff in i. destruct i as (e' & <- & i). apply B; assumption.
    + intros (i & Bg & M). pose proof (B _ i Bg) as L1. pose proof (M (fst e) (in_map fst _ _ A1) A2) as L2. cbn [fst] in *.
      assert (v = fst e) as -> by (apply (begins_length _ _ s); [exact Bg|exact A2|lia]). destruct e as [v' t']. cbn [fst] in *. f_equal. f_equal.
      clear - ND A1 i. induction words as [|x words IH]; [destruct i|]. inversion ND as [|? ? Ni ND']; subst. destruct A1 as [-> |A1], i as [E|i].
      * congruence.
      * exfalso. apply Ni. apply (in_map fst) in i. exact i.
      * subst x. exfalso. apply Ni. apply (in_map fst) in A1. exact A1.
      * apply IH; assumption.
  - destruct G as [_ B]. split; [discriminate|]. intros (i & Bg & _). exfalso. apply (B _ i Bg).
Qed.
Lemma longest_none : forall (words : list (str * T)) s, longest words s = None <-> forall v, In v (map fst words) -> ~ begins v s.
Proof.
  intros words s. unfold longest. pose proof (longest_go words s None) as G. destruct (fold_left _ words None) as [e|] eqn:F.
  - destruct G as ([[A1 A2]|A] & _); [|discriminate]. split; [discriminate|]. intro H. exfalso. apply (H (fst e) (in_map fst _ _ A1) A2).
  - destruct G as [_ B]. split; [|reflexivity]. intros _ v i. apply in_map_iff in i. destruct i as (e' & <- & i). apply B, i.
Qed.
End Longest.

(** * Blanks and digits *)
Lemma all_blank_iff : forall s, all_blank s <-> forallb blank s = true.
Proof. intro s. unfold all_blank. rewrite Forall_forall, forallb_forall. reflexivity. Qed.
Lemma blanks_first : forall s, exists bl, all_blank bl /\ s = bl ++ drop_while blank s.
Proof. intro s. destruct (drop_while_suffix _ blank s) as (p & E & B). exists p. split; [apply all_blank_iff, B|exact E]. Qed.
Lemma blanks_skip : forall bl c s, all_blank bl -> blank c = false -> drop_while blank (bl ++ c :: s) = c :: s.
Proof. intros bl c s B C. rewrite drop_while_all by (apply all_blank_iff, B). apply drop_while_id, C. Qed.
Lemma take_drop_digits : forall s, s = take_digits s ++ drop_while is_digit s /\ all_digits (take_digits s) = true /\ no_digit_first (drop_while is_digit s).
Proof.
  induction s as [|c s IH]; cbn [take_digits drop_while]; [repeat split|]. destruct (is_digit c) eqn:D.
  - destruct IH as (E & A & N). repeat (match goal with |- _ /\ _ => split end); [cbn [app]; f_equal; exact E|cbn; rewrite D; exact A|exact N].
  - repeat split. exact D.
Qed.
Lemma digits_then : forall ds s, all_digits ds = true -> no_digit_first s -> take_digits (ds ++ s) = ds /\ drop_while is_digit (ds ++ s) = s.
Proof.
  induction ds as [|c ds IH]; intros s A N; cbn [app].
  - destruct s as [|x s]; [split; reflexivity|]. cbn [no_digit_first] in N. cbn [take_digits drop_while]. rewrite N. split; reflexivity.
  - cbn [all_digits forallb] in A. apply andb_true_iff in A. destruct A as [D A]. cbn [take_digits drop_while]. rewrite D. destruct (IH s A N) as [-> ->]. split; reflexivity.
Qed.
Lemma digit_not_blank : forall c, is_digit c = true -> blank c = false.
Proof. intros c D. unfold is_digit in D. unfold blank. destruct (c =? 32) eqn:A; [apply N.eqb_eq in A; subst; discriminate|]. destruct (c =? 9) eqn:B; [apply N.eqb_eq in B; subst; discriminate|]. destruct (c =? 10) eqn:C; [apply N.eqb_eq in C; subst; discriminate|]. destruct (c =? 12) eqn:E; [apply N.eqb_eq in E; subst; discriminate|]. reflexivity. Qed.

(** * What is lexed next *)
Section Lexer.
Context {T : Type}.
Variable words : list (str * T).
Variable number : N -> T.
Variable after_error : str -> str.
Variable vocabulary : list str.
Hypothesis distinct : NoDup (map fst words).
Hypothesis same_words : forall v, In v vocabulary <-> In v (map fst words).
Hypothesis word_starts : forall v, In v vocabulary -> exists c v', v = c :: v' /\ blank c = false /\ is_digit c = false.
Notation next := (lex_next words number after_error).

Lemma next_end : forall s, next s = LEnd <-> all_blank s.
Proof.
  intro s. unfold lex_next. destruct (blanks_first s) as (bl & B & E). split.
  - destruct (drop_while blank s) as [|c s'] eqn:D; [intros _; rewrite E, app_nil_r; exact B|]. destruct (is_digit c).
    + destruct (parse_usize _); discriminate.
    + destruct (longest words (c :: s')) as [[v t]|]; discriminate.
  - intro A. rewrite drop_while_nil by (apply all_blank_iff, A). reflexivity.
Qed.
Lemma read_word_next : forall v t s s1, In (v, t) words -> read_word vocabulary v s s1 -> next s = LToken t s1.
Proof.
  intros v t s s1 i R. destruct R as [bl s1 B Vi M]. destruct (word_starts v Vi) as (c & v' & -> & Cb & Cd). unfold lex_next. cbn [app]. rewrite blanks_skip by assumption. rewrite Cd.
  assert (longest words (c :: v' ++ s1) = Some (c :: v', t)) as ->.
  { apply longest_some; [exact distinct|]. split; [exact i|]. split; [exists s1; reflexivity|]. intros x ix Bx. apply M; [apply same_words, ix|exact Bx]. }
  f_equal. change (c :: v' ++ s1) with ((c :: v') ++ s1). rewrite skipn_app, skipn_all, Nat.sub_diag. reflexivity.
Qed.
Lemma parse_digits : forall ds, ds <> [] -> all_digits ds = true -> parse_usize ds = if dec_value ds 0 <? two64 then Some (dec_value ds 0) else None.
Proof. intros. apply parse_usize_digits; assumption. Qed.
Lemma number_next : forall bl ds s, all_blank bl -> ds <> [] -> all_digits ds = true -> no_digit_first s ->
  next (bl ++ ds ++ s) = if dec_value ds 0 <? two64 then LToken (number (dec_value ds 0)) s else LError s.
Proof.
  intros bl ds s B Ne A N. destruct ds as [|c ds]; [contradiction|]. pose proof A as A0. cbn [all_digits forallb] in A0. apply andb_true_iff in A0. destruct A0 as [D A0].
  unfold lex_next. cbn [app]. rewrite blanks_skip by (try exact B; apply digit_not_blank, D). rewrite D.
  change (c :: ds ++ s) with ((c :: ds) ++ s). rewrite (proj1 (digits_then (c :: ds) s A N)), (proj2 (digits_then ds s A0 N)). rewrite parse_digits by assumption. destruct (_ <? two64); reflexivity.
Qed.
Lemma read_number_next : forall n s s1, read_number n s s1 -> next s = LToken (number n) s1.
Proof. intros n s s1 R. destruct R as [bl ds s1 B Ne A N <- Lt]. rewrite number_next by assumption. apply N.ltb_lt in Lt. rewrite Lt. reflexivity. Qed.
Lemma unreadable_next : forall s r, unreadable vocabulary after_error s r -> next s = LError r.
Proof.
  intros s r R. destruct R as [bl ds s B Ne A N Ge|bl c s B Cb Cd Nv].
  - rewrite number_next by assumption. apply N.ltb_ge in Ge. rewrite Ge. reflexivity.
  - unfold lex_next. rewrite blanks_skip by assumption. rewrite Cd. assert (longest words (c :: s) = None) as -> by (apply longest_none; intros v i; apply Nv, same_words, i). reflexivity.
Qed.
Lemma next_cases : forall s, match next s with
  | LEnd => all_blank s
  | LToken t s1 => (exists v, In (v, t) words /\ read_word vocabulary v s s1) \/ (exists n, t = number n /\ read_number n s s1)
  | LError r => unreadable vocabulary after_error s r
  end.
Proof.
  intro s. destruct (blanks_first s) as (bl & B & E). remember (next s) as r eqn:R. unfold lex_next in R. pose proof (drop_while_head _ blank s) as Hd. destruct (drop_while blank s) as [|c s'] eqn:D.
  - subst r. rewrite E, app_nil_r. exact B.
  - destruct (is_digit c) eqn:Dc.
    + destruct (take_drop_digits (c :: s')) as (E2 & A & N). cbn [take_digits drop_while] in E2, A, N, R. rewrite Dc in E2, A, N, R.
      assert (c :: take_digits s' <> []) as Ne by discriminate. rewrite parse_digits in R by assumption.
      rewrite E, E2. destruct (dec_value (c :: take_digits s') 0 <? two64) eqn:Lt; subst r.
      * right. eexists. split; [reflexivity|]. apply rd_number with (ds := c :: take_digits s'); try assumption; [reflexivity|apply N.ltb_lt, Lt].
      * apply (ur_number vocabulary after_error bl (c :: take_digits s')); try assumption. apply N.ltb_ge, Lt.
    + destruct (longest words (c :: s')) as [[v t]|] eqn:L; subst r.
      * apply longest_some in L; [|exact distinct]. destruct L as (i & Bg & M). left. exists v. split; [exact i|]. pose proof (begins_app_skip _ _ Bg) as E3. rewrite E. rewrite E3 at 1.
        apply rd_word; [exact B|apply same_words, (in_map fst _ _ i)|]. intros v' iv Bv. apply M; [apply same_words, iv|]. rewrite E3. exact Bv.
      * rewrite E. apply ur_other; try assumption. intros v iv. apply (proj1 (longest_none words _) L), same_words, iv.
Qed.
Lemma read_word_shorter : forall v s s1, read_word vocabulary v s s1 -> (length s1 < length s)%nat.
Proof. intros v s s1 R. destruct R as [bl s1 B Vi M]. destruct (word_starts v Vi) as (c & v' & -> & _). rewrite !app_length. cbn [length]. lia. Qed.
Lemma read_number_shorter : forall n s s1, read_number n s s1 -> (length s1 < length s)%nat.
Proof. intros n s s1 R. destruct R as [bl ds s1 B Ne A N E Lt]. destruct ds; [contradiction|]. rewrite !app_length. cbn [length]. lia. Qed.
Lemma next_shorter : forall s t s1, next s = LToken t s1 -> (length s1 < length s)%nat.
Proof. intros s t s1 E. pose proof (next_cases s) as C. rewrite E in C. destruct C as [(v & _ & R)|(n & _ & R)]; [apply (read_word_shorter _ _ _ R)|apply (read_number_shorter _ _ _ R)]. Qed.

(** ** Adjustments *)
Context {U : Type}.
Variable op_of : T -> option operation.
Variable number_of : T -> option N.
Variable unit_of : T -> option U.
Variable units : list (str * U).
Hypothesis op_words : forall v t o, In (v, t) words -> (op_of t = Some o <-> In (v, o) ops).
Hypothesis op_numbers : forall n, op_of (number n) = None.
Hypothesis number_words : forall v t, In (v, t) words -> number_of t = None.
Hypothesis number_numbers : forall n, number_of (number n) = Some n.
Hypothesis unit_words : forall v t u, In (v, t) words -> (unit_of t = Some u <-> In (v, u) units).
Hypothesis unit_numbers : forall n, unit_of (number n) = None.

Lemma word_token : forall v s s1, read_word vocabulary v s s1 -> exists t, In (v, t) words /\ next s = LToken t s1.
Proof.
  intros v s s1 R. assert (In v vocabulary) as i by (destruct R; assumption). apply same_words, in_map_iff in i. destruct i as ([v' t] & E & i). cbn [fst] in E. subst v'.
  exists t. split; [exact i|]. apply (read_word_next v); assumption.
Qed.
(** A token the parser takes for an operation, a number or a unit. *)
Lemma next_op : forall s o s1, (exists t, next s = LToken t s1 /\ op_of t = Some o) <-> (exists v, read_word vocabulary v s s1 /\ In (v, o) ops).
Proof.
  intros s o s1. split.
  - intros (t & E & Ot). pose proof (next_cases s) as C. rewrite E in C. destruct C as [(v & i & R)|(n & -> & R)]; [|rewrite op_numbers in Ot; discriminate]. exists v. split; [exact R|apply (op_words v t o i), Ot].
  - intros (v & R & i). destruct (word_token v s s1 R) as (t & it & E). exists t. split; [exact E|apply (op_words v t o it), i].
Qed.
Lemma next_unit : forall s u s1, (exists t, next s = LToken t s1 /\ unit_of t = Some u) <-> (exists v, read_word vocabulary v s s1 /\ In (v, u) units).
Proof.
  intros s u s1. split.
  - intros (t & E & Ot). pose proof (next_cases s) as C. rewrite E in C. destruct C as [(v & i & R)|(n & -> & R)]; [|rewrite unit_numbers in Ot; discriminate]. exists v. split; [exact R|apply (unit_words v t u i), Ot].
  - intros (v & R & i). destruct (word_token v s s1 R) as (t & it & E). exists t. split; [exact E|apply (unit_words v t u it), i].
Qed.
Lemma next_number : forall s n s1, (exists t, next s = LToken t s1 /\ number_of t = Some n) <-> read_number n s s1.
Proof.
  intros s n s1. split.
  - intros (t & E & Ot). pose proof (next_cases s) as C. rewrite E in C. destruct C as [(v & i & R)|(m & -> & R)]; [rewrite (number_words v t i) in Ot; discriminate|]. rewrite number_numbers in Ot. injection Ot as <-. exact R.
  - intro R. exists (number n). split; [apply read_number_next, R|apply number_numbers].
Qed.
Lemma duration_iff : forall s u n s2, duration next number_of unit_of s = Some (u, n, s2) <->
  exists s1 v, read_number n s s1 /\ read_word vocabulary v s1 s2 /\ In (v, u) units.
Proof.
  intros s u n s2. unfold duration. split.
  - destruct (next s) as [|t s1|] eqn:E; try discriminate. destruct (number_of t) as [n'|] eqn:Nt; [|discriminate]. destruct (next s1) as [|t' s2'|] eqn:E2; try discriminate.
    destruct (unit_of t') as [u'|] eqn:Ut; [|discriminate]. cbn [option_map]. intro H. injection H as -> -> ->. exists s1.
    destruct (proj1 (next_unit s1 u s2)) as (v & R & i); [eauto|]. exists v. split; [|auto]. apply next_number. eauto.
  - intros (s1 & v & R1 & R2 & i). destruct (proj2 (next_number s n s1) R1) as (t & -> & ->). destruct (proj2 (next_unit s1 u s2)) as (t' & -> & ->); [eauto|]. reflexivity.
Qed.
(** What is left when the adjustments are over. *)
Definition over (s r : str) : Prop :=
  next s = LEnd /\ r = [] \/ next s = LError r \/ exists t, next s = LToken t r /\ op_of t = None.
Lemma adjustments_iff : forall f o s l r, (length s < f)%nat ->
  (adjustments next op_of number_of unit_of f o s = Some (l, r) <->
   exists u n s1 v s2 l' s3, l = mkAdj u n o :: l' /\ read_number n s s1 /\ read_word vocabulary v s1 s2 /\ In (v, u) units /\
     read_adjustments vocabulary units l' s2 s3 /\ over s3 r).
Proof.
  induction f as [|f IH]; intros o s l r Hf; [lia|]. cbn [adjustments]. split.
  - destruct (duration next number_of unit_of s) as [[[u n] s2]|] eqn:D; [|discriminate]. apply duration_iff in D. destruct D as (s1 & v & R1 & R2 & i). pose proof (read_number_shorter _ _ _ R1). pose proof (read_word_shorter _ _ _ R2).
    destruct (next s2) as [|t s3|s3] eqn:E.
    + intro H1. injection H1 as <- <-. exists u, n, s1, v, s2, [], s2. repeat (match goal with |- _ /\ _ => split end); try assumption; [reflexivity|constructor|left; auto].
    + destruct (op_of t) as [o'|] eqn:Ot.
      * pose proof (next_shorter _ _ _ E). destruct (adjustments next op_of number_of unit_of f o' s3) as [[l' r']|] eqn:A; [|discriminate]. cbn [option_map fst snd]. intro H2. injection H2 as <- <-.
        apply IH in A; [|lia]. destruct A as (u' & n' & t1 & v' & t2 & l'' & t3 & -> & Q1 & Q2 & Qi & Q3 & Q4).
        destruct (proj1 (next_op s2 o' s3)) as (vo & Ro & io); [eauto|].
        exists u, n, s1, v, s2, (mkAdj u' n' o' :: l''), t3. repeat (match goal with |- _ /\ _ => split end); try assumption; [reflexivity|]. eapply ra_cons; eassumption.
      * intro H1. injection H1 as <- <-. exists u, n, s1, v, s2, [], s2. repeat (match goal with |- _ /\ _ => split end); try assumption; [reflexivity|constructor|right; right; eauto].
    + intro H1. injection H1 as <- <-. exists u, n, s1, v, s2, [], s2. repeat (match goal with |- _ /\ _ => split end); try assumption; [reflexivity|constructor|right; left; auto].
  - intros (u & n & s1 & v & s2 & l' & s3 & -> & R1 & R2 & i & RA & Ov). rewrite (proj2 (duration_iff s u n s2)); [|eauto]. pose proof (read_number_shorter _ _ _ R1). pose proof (read_word_shorter _ _ _ R2).
    inversion RA as [|vo o' n' vu u' l'' ? t1 t2 t3 ? Ro io Rn Ru iu RA']; subst.
    + destruct Ov as [[E ->]|[E|(t & E & Ot)]]; rewrite E; [reflexivity|reflexivity|rewrite Ot; reflexivity].
    + destruct (proj2 (next_op s2 o' t1)) as (t & E & Ot); [eauto|]. rewrite E, Ot. pose proof (next_shorter _ _ _ E).
      rewrite (proj2 (IH o' t1 (mkAdj u' n' o' :: l'') r ltac:(lia))); [reflexivity|]. exists u', n', t2, vu, t3, l'', s3. repeat (match goal with |- _ /\ _ => split end); auto.
Qed.
Lemma over_adjustment : forall s r, over s r -> match next s with LToken t _ => op_of t = None | _ => True end.
Proof. intros s r [[-> _]|[-> |(t & -> & E)]]; auto. Qed.
(** What follows a base or an offset. *)
Lemma more_iff : forall s l r, more next op_of number_of unit_of (next s) = Some (l, r) <->
  exists s1, read_adjustments vocabulary units l s s1 /\
    (if match l with [] => true | _ => false end then next s1 = LEnd /\ r = [] \/ next s1 = LError r else over s1 r).
Proof.
  intros s l r. unfold more. split.
  - destruct (next s) as [|t s1|s1] eqn:E.
    + intro H. injection H as <- <-. exists s. split; [constructor|left; auto].
    + destruct (op_of t) as [o|] eqn:Ot; [|discriminate]. intro A. apply adjustments_iff in A; [|lia].
      destruct A as (u & n & t1 & v & t2 & l' & t3 & -> & R1 & R2 & i & RA & Ov). exists t3. split; [|exact Ov]. destruct (proj1 (next_op s o s1)) as (vo & Ro & io); [eauto|]. eapply ra_cons; eassumption.
    + intro H. injection H as <- <-. exists s. split; [constructor|right; auto].
  - intros (s1 & RA & H). inversion RA as [|vo o' n' vu u' l'' ? t1 t2 t3 ? Ro io Rn Ru iu RA']; subst.
    + destruct H as [[-> ->]| ->]; reflexivity.
    + destruct (proj2 (next_op s o' t1)) as (t & E & Ot); [eauto|]. rewrite E, Ot. apply adjustments_iff; [lia|]. exists u', n', t2, vu, t3, l'', s1. repeat (match goal with |- _ /\ _ => split end); auto.
Qed.

Variable w : world.
Lemma nothing_left_iff : forall r, nothing_left w r = true <-> only_space w r.
Proof.
  intro r. unfold nothing_left, only_space. destruct (trim_split w r) as (p & q & E & P & Q). split.
  - intro H. destruct (trim w r) eqn:Tr; [|discriminate]. cbn [app] in E. rewrite E. apply Forall_forall. intros c i. apply in_app_iff in i. destruct i as [i|i]; [eapply forallb_forall in P|eapply forallb_forall in Q]; eauto.
  - intro F. rewrite trim_blank; [reflexivity|]. apply forallb_forall. intros c i. rewrite Forall_forall in F. apply F, i.
Qed.
Lemma over_stray : forall s r t, next s = LToken t r -> op_of t = None -> stray vocabulary s r.
Proof.
  intros s r t E Ot. pose proof (next_cases s) as C. rewrite E in C. destruct C as [(v & i & R)|(n & -> & R)]; [right|left; eauto]. exists v. split; [exact R|].
  intro io. apply in_map_iff in io. destruct io as ([v' o] & E' & io). cbn [fst] in E'. subst v'. apply (op_words v t o i) in io. congruence.
Qed.
Lemma stray_over : forall s r, stray vocabulary s r -> exists t, next s = LToken t r /\ op_of t = None.
Proof.
  intros s r [(n & R)|(v & R & Nv)].
  - exists (number n). split; [apply read_number_next, R|apply op_numbers].
  - destruct (word_token v s r R) as (t & i & E). exists t. split; [exact E|]. destruct (op_of t) as [o|] eqn:Ot; [|reflexivity]. exfalso. apply Nv. apply (op_words v t o i) in Ot. apply (in_map fst _ _ Ot).
Qed.
(** A parser's result after a start. *)
Lemma finished_more : forall s l, finished w (more next op_of number_of unit_of (next s)) = Some l <->
  exists s1, read_adjustments vocabulary units l s s1 /\ ended vocabulary after_error w true l s1.
Proof.
  intros s l. unfold finished. split.
  - destruct (more next op_of number_of unit_of (next s)) as [[l' r]|] eqn:M; [|discriminate]. destruct (nothing_left w r) eqn:NL; [|discriminate]. intro H. injection H as ->.
    apply nothing_left_iff in NL. apply more_iff in M. destruct M as (s1 & RA & H). exists s1. split; [exact RA|]. pose proof (next_cases s1) as C.
    destruct l as [|a l]; cbn iota in H.
    + destruct H as [[E ->]|E]; rewrite E in C; [left; exact C|right; exists r; split; [exact NL|left; auto]].
    + destruct H as [[E ->]|[E|(t & E & Ot)]].
      * rewrite E in C. left. exact C.
      * rewrite E in C. right. exists r. split; [exact NL|left; auto].
      * right. exists r. split; [exact NL|]. right. split; [apply (over_stray _ _ t E Ot)|discriminate].
  - intros (s1 & RA & E). assert (exists r, only_space w r /\ (if match l with [] => true | _ => false end then next s1 = LEnd /\ r = [] \/ next s1 = LError r else over s1 r)) as (r & O & H).
    { destruct E as [B|(r & O & [(Un & Tl)|[St Nl]])].
      - exists []. split; [constructor|]. apply next_end in B. destruct l; [left; auto|left; auto].
      - exists r. split; [exact O|]. apply unreadable_next in Un. destruct l; [right; exact Un|right; left; exact Un].
      - exists r. split; [exact O|]. destruct l; [contradiction|]. right. right. apply stray_over, St. }
    rewrite (proj2 (more_iff s l r)); [|eauto]. apply nothing_left_iff in O. rewrite O. reflexivity.
Qed.
End Lexer.
