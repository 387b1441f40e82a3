(** Lemmas about the path expression model. *)
From Coq Require Import String List NArith Lia Bool.
From Verif Require Import Base PathExp.
Import ListNotations.
Open Scope N_scope.

(** * Helpers on character classes *)

Lemma ident_start_cases : forall c, ident_start c = true ->
  c = 95 \/ (65 <= c <= 90) \/ (97 <= c <= 122).
Proof.
  intros c H. unfold ident_start, ascii_alpha, is_upper, is_lower in H.
  rewrite !orb_true_iff, !andb_true_iff, N.eqb_eq, !N.leb_le in H. lia.
Qed.

Lemma ident_rest_cases : forall c, ident_rest c = true ->
  c = 95 \/ (65 <= c <= 90) \/ (97 <= c <= 122) \/ (48 <= c <= 57).
Proof.
  intros c H. unfold ident_rest in H. rewrite orb_true_iff in H. destruct H as [H|H].
  - apply ident_start_cases in H. lia.
  - apply is_digit_range in H. lia.
Qed.

Lemma ident_start_rest : forall c, ident_start c = true -> ident_rest c = true.
Proof. intros c H. unfold ident_rest. rewrite H. reflexivity. Qed.

Section WithUnicode.
Variable ua un : N -> bool.

Lemma ident_rest_identifier_char : forall c, ident_rest c = true -> is_identifier_char ua un c = true.
Proof.
  intros c H. pose proof (ident_rest_cases _ H) as R.
  unfold is_identifier_char, is_alphabetic, is_numeric.
  assert (E : c <? 128 = true) by (apply N.ltb_lt; lia). rewrite E.
  unfold ident_rest, ident_start in H.
  destruct (c =? 95), (ascii_alpha c), (is_digit c); simpl in *; congruence.
Qed.

(** What may follow an identifier without being swallowed by it. *)
Definition stops (rest : str) : Prop :=
  match rest with [] => True | c :: _ => c = 46 \/ c = 91 end.

Lemma ident_loop_app : forall s rest, forallb ident_rest s = true -> stops rest ->
  ident_loop ua un (s ++ rest) = Ok (s, rest).
Proof.
  induction s as [|c s IH]; intros rest Hs Hr.
  - simpl app. destruct rest as [|c rest]; [reflexivity|]. simpl in Hr. cbn [ident_loop].
    destruct Hr as [-> | ->]; reflexivity.
  - cbn [forallb] in Hs. apply andb_true_iff in Hs. destruct Hs as [Hc Hs].
    cbn [app ident_loop]. rewrite (ident_rest_identifier_char _ Hc), (IH rest Hs Hr). reflexivity.
Qed.

Lemma string_loop_spec : forall s c rest id, ~ In 39 (c :: s) ->
  string_loop c (s ++ 39 :: rest) id = (id ++ c :: s, 39, rest).
Proof.
  induction s as [|d s IH]; intros c rest id Hn.
  - cbn [app string_loop]. destruct (N.eqb_spec c 39) as [->|_]; [exfalso; apply Hn; left; reflexivity|].
    destruct rest; reflexivity.
  - cbn [app string_loop]. destruct (N.eqb_spec c 39) as [->|_]; [exfalso; apply Hn; left; reflexivity|].
    rewrite IH by (intro H; apply Hn; right; exact H).
    rewrite <- app_assoc. reflexivity.
Qed.

Lemma index_loop_app : forall ds rest, forallb is_digit ds = true ->
  index_loop un (ds ++ 93 :: rest) = (ds, 93 :: rest).
Proof.
  induction ds as [|c ds IH]; intros rest H.
  - reflexivity.
  - cbn [forallb] in H. apply andb_true_iff in H. destruct H as [Hc H].
    pose proof (is_digit_range _ Hc) as R.
    cbn [app index_loop]. unfold is_numeric at 1.
    assert (E : c <? 128 = true) by (apply N.ltb_lt; lia). rewrite E, Hc, (IH rest H). reflexivity.
Qed.

Lemma escape_key_plain : forall s, ~ In 39 s -> ~ In 92 s -> escape_key s = s.
Proof.
  induction s as [|c s IH]; intros H1 H2; [reflexivity|].
  cbn [escape_key].
  destruct (N.eqb_spec c 92) as [->|_]; [exfalso; apply H2; left; reflexivity|].
  destruct (N.eqb_spec c 39) as [->|_]; [exfalso; apply H1; left; reflexivity|].
  cbn [orb]. f_equal. apply IH; intro H; [apply H1 | apply H2]; right; exact H.
Qed.

(** Steps whose text the parser understands. *)
Definition printable (t : token) : Prop :=
  match t with
  | TRoot => False
  | TField f => f <> [] /\ ~ In 39 f /\ ~ In 92 f
  | TIndex i => i < two64
  | TStar | TStarIndex => True
  end.

Lemma token_expr_head : forall t, t <> TRoot ->
  exists c r, token_expr t = c :: r /\ (c = 46 \/ c = 91).
Proof.
  intros t Ht. destruct t; try congruence; simpl.
  - unfold obj_key_for_path. destruct (ident_match name); simpl; eauto.
  - eauto.
  - eauto.
  - eauto.
Qed.

Lemma build_expr_stops : forall ts, ~ In TRoot ts -> stops (build_expr ts).
Proof.
  intros [|t ts] H; [exact I|]. cbn [build_expr].
  destruct (token_expr_head t) as (c & r & E & Hc).
  - intros ->. apply H. left; reflexivity.
  - rewrite E. exact Hc.
Qed.

Lemma parse_step : forall t rest f, printable t -> stops rest ->
  path_exp ua un (S f) (token_expr t ++ rest) =
  bind (path_exp ua un f rest) (fun ts => Ok (t :: ts)).
Proof.
  intros t rest f Hp Hr. destruct t as [|n|i| |]; simpl in Hp; [contradiction| | | |].
  - destruct Hp as (Hne & Hq & Hb). cbn [token_expr]. unfold obj_key_for_path.
    destruct (ident_match n) eqn:Hi.
    + cbn [app path_exp]. change (46 =? 46) with true. cbv iota.
      destruct n as [|c n]; [congruence|]. cbn [ident_match] in Hi.
      apply andb_true_iff in Hi. destruct Hi as [Hc Hi].
      cbn [app path_identifier].
      pose proof (ident_start_cases _ Hc) as R.
      destruct (N.eqb_spec c 42) as [->|_]; [lia|].
      rewrite (ident_rest_identifier_char _ (ident_start_rest _ Hc)).
      unfold identifier. rewrite (ident_loop_app _ _ Hi Hr). reflexivity.
    + rewrite escape_key_plain by assumption.
      rewrite <- app_assoc. change (S_ "['") with [91; 39]. change (S_ "']") with [39; 93].
      rewrite <- app_assoc. cbn [app path_exp].
      change (91 =? 46) with false. change (91 =? 91) with true. cbv iota.
      unfold bracket_path, bracket_inner. change (39 =? 39) with true. cbv iota.
      destruct n as [|c n]; [congruence|].
      cbn [app string_path]. rewrite string_loop_spec by exact Hq.
      cbn [app]. change (39 =? 39) with true. cbv iota.
      cbn [bind snd fst]. change (93 =? 93) with true. reflexivity.
  - cbn [token_expr]. change (S_ "[") with [91]. change (S_ "]") with [93].
    rewrite <- !app_assoc. cbn [app path_exp].
    change (91 =? 46) with false. change (91 =? 91) with true. cbv iota.
    pose proof (show_N_digits i) as Hd. pose proof (show_N_nonempty i) as Hne.
    pose proof (parse_usize_show i Hp) as Hps.
    destruct (show_N i) as [|c ds]; [congruence|].
    unfold all_digits in Hd. cbn [forallb] in Hd. apply andb_true_iff in Hd. destruct Hd as [Hc Hd].
    pose proof (is_digit_range _ Hc) as R.
    cbn [app bracket_path]. unfold bracket_inner.
    destruct (N.eqb_spec c 39) as [->|_]; [lia|].
    unfold is_numeric. assert (E : c <? 128 = true) by (apply N.ltb_lt; lia). rewrite E, Hc.
    unfold index_path. rewrite (index_loop_app ds rest Hd). cbn [snd fst].
    change (93 =? 93) with true. cbv iota. rewrite Hps. cbn [bind snd fst].
    change (93 =? 93) with true. reflexivity.
  - cbn. reflexivity.
  - cbn. reflexivity.
Qed.

Lemma token_expr_len : forall t, (1 <= length (token_expr t))%nat.
Proof.
  intro t. destruct t; simpl; try lia.
  unfold obj_key_for_path. destruct (ident_match name); simpl; lia.
Qed.

Lemma printable_not_root : forall ts, Forall printable ts -> ~ In TRoot ts.
Proof.
  intros ts H Hin. rewrite Forall_forall in H. exact (H _ Hin).
Qed.

Lemma path_exp_build : forall ts f, Forall printable ts -> (length (build_expr ts) <= f)%nat ->
  path_exp ua un f (build_expr ts) = Ok ts.
Proof.
  induction ts as [|t ts IH]; intros f Hp Hf.
  - destruct f; reflexivity.
  - cbn [build_expr] in *. rewrite app_length in Hf. pose proof (token_expr_len t) as L.
    destruct f as [|f]; [lia|]. inversion Hp as [|? ? Ht Hts]; subst.
    rewrite parse_step.
    + rewrite IH; [reflexivity|assumption|lia].
    + exact Ht.
    + apply build_expr_stops, printable_not_root, Hts.
Qed.

Lemma parse_print : forall ts, Forall printable ts ->
  parse_path_exp ua un (build_expr (TRoot :: ts)) = Ok (TRoot :: ts).
Proof.
  intros ts H. cbn. rewrite path_exp_build by (assumption || lia). reflexivity.
Qed.

(** * The parser consumes input: fuel never runs out *)

Lemma ident_loop_len : forall cs r, ident_loop ua un cs = Ok r -> (length (snd r) <= length cs)%nat.
Proof.
  induction cs as [|c cs IH]; intros r H; cbn [ident_loop] in H.
  - inversion H; subst; simpl; lia.
  - destruct (is_identifier_char ua un c).
    + destruct (ident_loop ua un cs) as [r'|e|] eqn:E; cbn [bind] in H; try discriminate.
      inversion H; subst. cbn [snd]. specialize (IH _ eq_refl). simpl; lia.
    + destruct ((c =? 46) || (c =? 39) || (c =? 91)); inversion H; subst; simpl; lia.
Qed.

Lemma string_loop_len : forall cs ch id id' ch' rest,
  string_loop ch cs id = (id', ch', rest) -> (length rest <= length cs)%nat.
Proof.
  induction cs as [|c cs IH]; intros ch id id' ch' rest H; cbn [string_loop] in H.
  - inversion H; subst; simpl; lia.
  - destruct (ch =? 39); [inversion H; subst; simpl; lia|].
    apply IH in H. simpl; lia.
Qed.

Lemma index_loop_len : forall cs, (length (snd (index_loop un cs)) <= length cs)%nat.
Proof.
  induction cs as [|c cs IH]; simpl; [lia|]. destruct (is_numeric un c); simpl; lia.
Qed.

Lemma path_identifier_len : forall cs r, path_identifier ua un cs = Ok r -> (length (snd r) <= length cs)%nat.
Proof.
  intros [|c cs] r H; cbn [path_identifier] in H; [discriminate|].
  destruct (c =? 42); [inversion H; subst; simpl; lia|].
  destruct (is_identifier_char ua un c); [|discriminate].
  unfold identifier in H. destruct (ident_loop ua un cs) as [r'|e|] eqn:E; cbn [bind] in H; try discriminate.
  inversion H; subst. apply ident_loop_len in E. simpl; lia.
Qed.

Lemma bracket_inner_len : forall c cs r, bracket_inner un c cs = Ok r -> (length (snd r) <= length cs)%nat.
Proof.
  intros c cs r H. unfold bracket_inner in H.
  destruct (c =? 39).
  - destruct cs as [|d cs]; cbn [string_path] in H; [discriminate|].
    destruct (string_loop d cs []) as [[id ch] rest] eqn:E.
    apply string_loop_len in E. destruct (ch =? 39); [|discriminate].
    destruct id; inversion H; subst; simpl; lia.
  - destruct (is_numeric un c).
    + unfold index_path in H. pose proof (index_loop_len cs) as L.
      destruct (parse_usize (c :: fst (index_loop un cs))); destruct (snd (index_loop un cs)) as [|d r'] eqn:E2;
        try destruct (d =? 93); inversion H; subst; simpl snd; simpl in *; lia.
    + destruct (c =? 42); [inversion H; subst; simpl; lia|].
      destruct (c =? 93); discriminate.
Qed.

Lemma bracket_path_len : forall cs r, bracket_path un cs = Ok r -> (length (snd r) < length cs)%nat.
Proof.
  intros [|c cs] r H; cbn [bracket_path] in H; [discriminate|].
  destruct (bracket_inner un c cs) as [r'|e|] eqn:E; cbn [bind] in H; try discriminate.
  apply bracket_inner_len in E.
  destruct (snd r') as [|d rest]; [discriminate|].
  destruct (d =? 93); inversion H; subst; simpl in *; lia.
Qed.

Lemma ident_loop_not_fuel : forall cs, ident_loop ua un cs <> Err OutOfFuel.
Proof.
  induction cs as [|c cs IH]; cbn [ident_loop]; [discriminate|].
  destruct (is_identifier_char ua un c).
  - destruct (ident_loop ua un cs); cbn [bind]; congruence.
  - destruct ((c =? 46) || (c =? 39) || (c =? 91)); discriminate.
Qed.

Lemma identifier_not_fuel : forall c cs, identifier ua un c cs <> Err OutOfFuel.
Proof.
  intros c cs. unfold identifier. pose proof (ident_loop_not_fuel cs).
  destruct (ident_loop ua un cs); cbn [bind]; congruence.
Qed.

Lemma path_identifier_not_fuel : forall cs, path_identifier ua un cs <> Err OutOfFuel.
Proof.
  intros [|c cs]; cbn [path_identifier]; [discriminate|].
  destruct (c =? 42); [discriminate|]. destruct (is_identifier_char ua un c); [|discriminate].
  apply identifier_not_fuel.
Qed.

Lemma bracket_path_not_fuel : forall cs, bracket_path un cs <> Err OutOfFuel.
Proof.
  intros [|c cs]; cbn [bracket_path]; [discriminate|].
  assert (H : bracket_inner un c cs <> Err OutOfFuel).
  { unfold bracket_inner. destruct (c =? 39).
    - destruct cs as [|d cs]; cbn [string_path]; [discriminate|].
      destruct (string_loop d cs []) as [[id ch] rest]. destruct (ch =? 39); [|discriminate].
      destruct id; discriminate.
    - destruct (is_numeric un c).
      + unfold index_path. destruct (parse_usize (c :: fst (index_loop un cs)));
        destruct (snd (index_loop un cs)) as [|d r']; try destruct (d =? 93); discriminate.
      + destruct (c =? 42); [discriminate|]. destruct (c =? 93); discriminate. }
  destruct (bracket_inner un c cs) as [r|e|]; cbn [bind]; try congruence.
  destruct (snd r) as [|d rest]; [discriminate|]. destruct (d =? 93); discriminate.
Qed.

Lemma path_exp_not_fuel : forall f cs, (length cs <= f)%nat -> path_exp ua un f cs <> Err OutOfFuel.
Proof.
  induction f as [|f IH]; intros [|c cs] L; cbn [path_exp]; try discriminate; simpl in L; [lia|].
  destruct (c =? 46).
  - pose proof (path_identifier_not_fuel cs) as P. pose proof (path_identifier_len cs) as Q.
    destruct (path_identifier ua un cs) as [r|e|]; cbn [bind]; try congruence.
    specialize (Q _ eq_refl). specialize (IH (snd r)).
    destruct (path_exp ua un f (snd r)); cbn [bind]; try congruence.
    intro H; inversion H; subst. apply IH; [lia|reflexivity].
  - destruct (c =? 91); [|discriminate].
    pose proof (bracket_path_not_fuel cs) as P. pose proof (bracket_path_len cs) as Q.
    destruct (bracket_path un cs) as [r|e|]; cbn [bind]; try congruence.
    specialize (Q _ eq_refl). specialize (IH (snd r)).
    destruct (path_exp ua un f (snd r)); cbn [bind]; try congruence.
    intro H; inversion H; subst. apply IH; [lia|reflexivity].
Qed.

Lemma parse_not_fuel : forall s, parse_path_exp ua un s <> Err OutOfFuel.
Proof.
  intros [|c cs]; cbn [parse_path_exp]; [discriminate|].
  destruct (c =? 36).
  - pose proof (path_exp_not_fuel (length cs) cs (le_n _)).
    destruct (path_exp ua un (length cs) cs); cbn [bind]; congruence.
  - destruct (is_alphabetic ua c || is_numeric un c); [|discriminate].
    pose proof (identifier_not_fuel c cs).
    destruct (identifier ua un c cs) as [r|e|]; cbn [bind]; try congruence.
    pose proof (path_exp_not_fuel (length (snd r)) (snd r) (le_n _)).
    destruct (path_exp ua un (length (snd r)) (snd r)); cbn [bind]; congruence.
Qed.

(** * Panics come only from over-long or non-ASCII bracketed numbers *)

(** [s] contains "[" followed by a non-empty run of numeric characters that is
    not a [usize]. *)
Definition bad_index_in (s : str) : Prop :=
  exists pre ds post, s = pre ++ 91 :: ds ++ post /\ ds <> [] /\
    forallb (is_numeric un) ds = true /\ parse_usize ds = None.

Lemma index_loop_split : forall cs, cs = fst (index_loop un cs) ++ snd (index_loop un cs) /\
  forallb (is_numeric un) (fst (index_loop un cs)) = true.
Proof.
  induction cs as [|c cs [IH1 IH2]]; [split; reflexivity|].
  cbn [index_loop]. destruct (is_numeric un c) eqn:E; [|split; reflexivity].
  cbn [fst snd app forallb]. rewrite E, IH2. split; [f_equal; exact IH1|reflexivity].
Qed.

Lemma bracket_path_panic : forall cs, bracket_path un cs = Panic -> bad_index_in (91 :: cs).
Proof.
  intros [|c cs] H; cbn [bracket_path] in H; [discriminate|].
  unfold bracket_inner in H. destruct (c =? 39).
  { destruct cs as [|d cs]; cbn [string_path bind] in H; [discriminate|].
    destruct (string_loop d cs []) as [[id ch] rest]. destruct (ch =? 39); [|discriminate].
    destruct id as [|x id]; cbn [bind] in H; [discriminate|].
    cbn [snd] in H. destruct rest as [|e rest]; [discriminate|]. destruct (e =? 93); discriminate. }
  destruct (is_numeric un c) eqn:En.
  - unfold index_path in H. destruct (index_loop_split cs) as [S1 S2].
    destruct (parse_usize (c :: fst (index_loop un cs))) as [i|] eqn:Ep.
    + destruct (snd (index_loop un cs)) as [|d r] eqn:E2; cbn [bind snd] in H; try discriminate.
      destruct (d =? 93) eqn:E3; cbn [bind snd fst] in H; [rewrite E3 in H|]; discriminate.
    + exists [], (c :: fst (index_loop un cs)), (snd (index_loop un cs)).
      split; [cbn [app]; rewrite <- S1; reflexivity|].
      split; [discriminate|]. split; [cbn [forallb]; rewrite En, S2; reflexivity|exact Ep].
  - destruct (c =? 42); cbn [bind snd] in H.
    + destruct cs as [|d r]; [discriminate|]. destruct (d =? 93); discriminate.
    + destruct (c =? 93); discriminate.
Qed.

Lemma ident_loop_no_panic : forall cs, ident_loop ua un cs <> Panic.
Proof.
  induction cs as [|c cs IH]; cbn [ident_loop]; [discriminate|].
  destruct (is_identifier_char ua un c).
  - destruct (ident_loop ua un cs); cbn [bind]; congruence.
  - destruct ((c =? 46) || (c =? 39) || (c =? 91)); discriminate.
Qed.

Lemma identifier_no_panic : forall c cs, identifier ua un c cs <> Panic.
Proof.
  intros c cs. unfold identifier. pose proof (ident_loop_no_panic cs).
  destruct (ident_loop ua un cs); cbn [bind]; congruence.
Qed.

Lemma path_identifier_no_panic : forall cs, path_identifier ua un cs <> Panic.
Proof.
  intros [|c cs]; cbn [path_identifier]; [discriminate|].
  destruct (c =? 42); [discriminate|]. destruct (is_identifier_char ua un c); [|discriminate].
  apply identifier_no_panic.
Qed.

(** What is left of the input is a suffix of it. *)
Definition suffix (r s : str) : Prop := exists p, s = p ++ r.

Lemma suffix_refl : forall s, suffix s s.
Proof. intro s; exists []; reflexivity. Qed.

Lemma suffix_cons : forall c r s, suffix r s -> suffix r (c :: s).
Proof. intros c r s [p ->]. exists (c :: p). reflexivity. Qed.

Lemma suffix_trans : forall a b c, suffix a b -> suffix b c -> suffix a c.
Proof. intros a b c [p ->] [q ->]. exists (q ++ p). rewrite app_assoc. reflexivity. Qed.

Lemma bad_index_suffix : forall r s, suffix r s -> bad_index_in r -> bad_index_in s.
Proof.
  intros r s [p ->] (pre & ds & post & -> & H). exists (p ++ pre), ds, post.
  rewrite <- app_assoc. split; [reflexivity|exact H].
Qed.

Lemma ident_loop_suffix : forall cs r, ident_loop ua un cs = Ok r ->
  cs = fst r ++ snd r /\ forallb (is_identifier_char ua un) (fst r) = true.
Proof.
  induction cs as [|c cs IH]; intros r H; cbn [ident_loop] in H.
  - inversion H; subst; split; reflexivity.
  - destruct (is_identifier_char ua un c) eqn:Ec.
    + destruct (ident_loop ua un cs) as [r'|e|] eqn:E; cbn [bind] in H; try discriminate.
      inversion H; subst. cbn [fst snd app forallb]. destruct (IH _ eq_refl) as [E1 E2].
      rewrite Ec, E2. split; [f_equal; exact E1|reflexivity].
    + destruct ((c =? 46) || (c =? 39) || (c =? 91)); inversion H; subst; split; reflexivity.
Qed.

Lemma string_loop_inv : forall cs ch id id' ch' rest,
  string_loop ch cs id = (id', ch', rest) -> ch' = 39 ->
  exists mid, id' = id ++ mid /\ ch :: cs = mid ++ 39 :: rest /\ ~ In 39 mid.
Proof.
  induction cs as [|c cs IH]; intros ch id id' ch' rest H Hq; cbn [string_loop] in H.
  - inversion H; subst. exists []. rewrite app_nil_r. split; [reflexivity|]. split; [reflexivity|intros []].
  - destruct (N.eqb_spec ch 39) as [->|Hc].
    + inversion H; subst. exists []. rewrite app_nil_r. split; [reflexivity|]. split; [reflexivity|intros []].
    + apply IH in H; [|exact Hq]. destruct H as (mid & -> & E & Hn).
      exists (ch :: mid). rewrite <- app_assoc. split; [reflexivity|]. split; [cbn [app]; f_equal; exact E|].
      intros [Hx|Hx]; [congruence|exact (Hn Hx)].
Qed.

(** Shape of steps produced by the parser. *)
Definition parsed_token (s : str) (t : token) : Prop :=
  match t with
  | TRoot => False
  | TField f => f <> [] /\ ~ In 39 f /\ incl f s
  | TIndex i => i < two64
  | TStar | TStarIndex => True
  end.

Lemma identifier_char_not_quote : forall c, is_identifier_char ua un c = true -> c <> 39.
Proof. intros c H ->. cbv in H. discriminate. Qed.

Lemma forallb_not_quote : forall s, forallb (is_identifier_char ua un) s = true -> ~ In 39 s.
Proof.
  intros s H Hin. rewrite forallb_forall in H. apply H in Hin.
  exact (identifier_char_not_quote _ Hin eq_refl).
Qed.

Lemma identifier_inv : forall c cs r, is_identifier_char ua un c = true ->
  identifier ua un c cs = Ok r ->
  suffix (snd r) cs /\ parsed_token (c :: cs) (fst r).
Proof.
  intros c cs r Hc H. unfold identifier in H.
  destruct (ident_loop ua un cs) as [r'|e|] eqn:E; cbn [bind] in H; try discriminate.
  inversion H; subst. cbn [fst snd]. destruct (ident_loop_suffix _ _ E) as [E1 E2].
  split; [exists (fst r'); exact E1|].
  cbn [parsed_token]. split; [discriminate|]. split.
  - intros [Hx|Hx]; [exact (identifier_char_not_quote _ Hc Hx)|exact (forallb_not_quote _ E2 Hx)].
  - intros x [Hx|Hx]; [left; exact Hx|right]. rewrite E1. apply in_or_app. left; exact Hx.
Qed.

Lemma path_identifier_inv : forall cs r, path_identifier ua un cs = Ok r ->
  suffix (snd r) cs /\ parsed_token cs (fst r).
Proof.
  intros [|c cs] r H; cbn [path_identifier] in H; [discriminate|].
  destruct (c =? 42).
  - inversion H; subst. cbn [fst snd]. split; [apply suffix_cons, suffix_refl|exact I].
  - destruct (is_identifier_char ua un c) eqn:Ec; [|discriminate].
    apply identifier_inv in H; [|exact Ec]. destruct H as [H1 H2].
    split; [apply suffix_cons, H1|exact H2].
Qed.

Lemma parse_usize_bound : forall s i, parse_usize s = Some i -> i < two64.
Proof.
  intros s i H. unfold parse_usize in H.
  set (ds := match s with [] => s | c :: s' => if c =? 43 then s' else s end) in H.
  destruct ds; [discriminate|]. destruct (all_digits (n :: ds)); [|discriminate].
  cbv zeta in H. destruct (dec_value (n :: ds) 0 <? two64) eqn:E; [|discriminate].
  inversion H; subst. apply N.ltb_lt in E. exact E.
Qed.

Lemma bracket_inner_inv : forall c cs r, bracket_inner un c cs = Ok r ->
  suffix (snd r) cs /\ parsed_token (c :: cs) (fst r).
Proof.
  intros c cs r H. unfold bracket_inner in H. destruct (c =? 39).
  - destruct cs as [|d cs]; cbn [string_path] in H; [discriminate|].
    destruct (string_loop d cs []) as [[id ch] rest] eqn:E.
    destruct (N.eqb_spec ch 39) as [->|]; [|discriminate].
    apply string_loop_inv in E; [|reflexivity]. destruct E as (mid & Em & E & Hn).
    cbn [app] in Em. subst id.
    destruct mid as [|m mid]; [discriminate|]. inversion H; subst r. cbn [fst snd].
    rewrite E. split; [exists ((m :: mid) ++ [39]); rewrite <- app_assoc; reflexivity|].
    cbn [parsed_token]. split; [discriminate|]. split; [exact Hn|].
    intros x Hx. right. apply in_or_app. left. exact Hx.
  - destruct (is_numeric un c).
    + unfold index_path in H. destruct (index_loop_split cs) as [S1 S2].
      assert (Hs : suffix (snd (index_loop un cs)) cs) by (exists (fst (index_loop un cs)); exact S1).
      destruct (parse_usize (c :: fst (index_loop un cs))) as [i|] eqn:Ep.
      * apply parse_usize_bound in Ep.
        destruct (snd (index_loop un cs)) as [|d r'] eqn:E2.
        -- inversion H; subst. cbn [fst snd]. split; [exact Hs|exact Ep].
        -- destruct (d =? 93); inversion H; subst. cbn [fst snd]. split; [exact Hs|exact Ep].
      * destruct (snd (index_loop un cs)) as [|d r']; [discriminate|]. destruct (d =? 93); discriminate.
    + destruct (c =? 42); [inversion H; subst; cbn [fst snd]; split; [apply suffix_refl|exact I]|].
      destruct (c =? 93); discriminate.
Qed.

Lemma bracket_path_inv : forall cs r, bracket_path un cs = Ok r ->
  suffix (snd r) cs /\ parsed_token cs (fst r).
Proof.
  intros [|c cs] r H; cbn [bracket_path] in H; [discriminate|].
  destruct (bracket_inner un c cs) as [r'|e|] eqn:E; cbn [bind] in H; try discriminate.
  apply bracket_inner_inv in E. destruct E as [E1 E2].
  destruct (snd r') as [|d rest]; [discriminate|].
  destruct (d =? 93); inversion H; subst. cbn [fst snd]. split; [|exact E2].
  apply suffix_cons. destruct E1 as [p ->]. exists (p ++ [d]). rewrite <- app_assoc. reflexivity.
Qed.

Lemma suffix_incl : forall r s, suffix r s -> incl r s.
Proof. intros r s [p ->] x Hx. apply in_or_app. right; exact Hx. Qed.

Lemma parsed_token_mono : forall s s' t, incl s s' -> parsed_token s t -> parsed_token s' t.
Proof.
  intros s s' t Hi H. destruct t; simpl in *; auto. destruct H as (A & B & C).
  split; [exact A|]. split; [exact B|]. eapply incl_tran; eauto.
Qed.

Lemma path_exp_inv : forall f cs ts, path_exp ua un f cs = Ok ts -> Forall (parsed_token cs) ts.
Proof.
  induction f as [|f IH]; intros [|c cs] ts H; cbn [path_exp] in H; try (inversion H; subst; constructor; fail).
  destruct (c =? 46); [|destruct (c =? 91); [|discriminate]].
  - destruct (path_identifier ua un cs) as [r|e|] eqn:E; cbn [bind] in H; try discriminate.
    destruct (path_exp ua un f (snd r)) as [ts'|e|] eqn:E2; cbn [bind] in H; try discriminate.
    inversion H; subst. apply path_identifier_inv in E. destruct E as [E1 E3].
    constructor.
    + eapply parsed_token_mono; [|exact E3]. apply incl_tl, incl_refl.
    + apply IH in E2. eapply Forall_impl; [|exact E2]. intros t. apply parsed_token_mono.
      apply incl_tl, suffix_incl, E1.
  - destruct (bracket_path un cs) as [r|e|] eqn:E; cbn [bind] in H; try discriminate.
    destruct (path_exp ua un f (snd r)) as [ts'|e|] eqn:E2; cbn [bind] in H; try discriminate.
    inversion H; subst. apply bracket_path_inv in E. destruct E as [E1 E3].
    constructor.
    + eapply parsed_token_mono; [|exact E3]. apply incl_tl, incl_refl.
    + apply IH in E2. eapply Forall_impl; [|exact E2]. intros t. apply parsed_token_mono.
      apply incl_tl, suffix_incl, E1.
Qed.

Lemma parse_inv : forall s ts, s <> [] -> parse_path_exp ua un s = Ok ts ->
  exists us, ts = TRoot :: us /\ Forall (parsed_token s) us.
Proof.
  intros [|c cs] ts Hne H; [congruence|]. cbn [parse_path_exp] in H.
  destruct (c =? 36).
  - destruct (path_exp ua un (length cs) cs) as [us|e|] eqn:E; cbn [bind] in H; try discriminate.
    inversion H; subst. exists us. split; [reflexivity|]. apply path_exp_inv in E.
    eapply Forall_impl; [|exact E]. intros t; apply parsed_token_mono. apply incl_tl, incl_refl.
  - destruct (is_alphabetic ua c || is_numeric un c) eqn:Ec; [|discriminate].
    assert (Hic : is_identifier_char ua un c = true).
    { unfold is_identifier_char. rewrite Ec. reflexivity. }
    destruct (identifier ua un c cs) as [r|e|] eqn:E; cbn [bind] in H; try discriminate.
    destruct (path_exp ua un (length (snd r)) (snd r)) as [us|e|] eqn:E2; cbn [bind] in H; try discriminate.
    inversion H; subst. exists (fst r :: us). split; [reflexivity|].
    apply identifier_inv in E; [|exact Hic]. destruct E as [E1 E3].
    constructor; [exact E3|]. apply path_exp_inv in E2.
    eapply Forall_impl; [|exact E2]. intros t; apply parsed_token_mono.
    apply incl_tl, suffix_incl, E1.
Qed.

Lemma path_exp_panic : forall f cs, path_exp ua un f cs = Panic -> bad_index_in cs.
Proof.
  induction f as [|f IH]; intros [|c cs] H; cbn [path_exp] in H; try discriminate.
  destruct (N.eqb_spec c 46) as [->|_].
  - destruct (path_identifier ua un cs) as [r|e|] eqn:E; cbn [bind] in H; try discriminate.
    + destruct (path_exp ua un f (snd r)) as [ts'|e|] eqn:E2; cbn [bind] in H; try discriminate.
      apply IH in E2. apply path_identifier_inv in E. destruct E as [E1 _].
      eapply bad_index_suffix; [|exact E2]. apply suffix_cons, E1.
    + exfalso; exact (path_identifier_no_panic _ E).
  - destruct (N.eqb_spec c 91) as [->|_]; [|discriminate].
    destruct (bracket_path un cs) as [r|e|] eqn:E; cbn [bind] in H; try discriminate.
    + destruct (path_exp ua un f (snd r)) as [ts'|e|] eqn:E2; cbn [bind] in H; try discriminate.
      apply IH in E2. apply bracket_path_inv in E. destruct E as [E1 _].
      eapply bad_index_suffix; [|exact E2]. apply suffix_cons, E1.
    + apply bracket_path_panic, E.
Qed.

Lemma parse_panic : forall s, parse_path_exp ua un s = Panic -> bad_index_in s.
Proof.
  intros [|c cs] H; cbn [parse_path_exp] in H; [discriminate|].
  destruct (c =? 36).
  - destruct (path_exp ua un (length cs) cs) as [us|e|] eqn:E; cbn [bind] in H; try discriminate.
    apply path_exp_panic in E. eapply bad_index_suffix; [|exact E]. apply suffix_cons, suffix_refl.
  - destruct (is_alphabetic ua c || is_numeric un c) eqn:Ec; [|discriminate].
    destruct (identifier ua un c cs) as [r|e|] eqn:E; cbn [bind] in H; try discriminate.
    + destruct (path_exp ua un (length (snd r)) (snd r)) as [us|e|] eqn:E2; cbn [bind] in H; try discriminate.
      apply path_exp_panic in E2. apply identifier_inv in E.
      * eapply bad_index_suffix; [|exact E2]. apply suffix_cons, E.
      * unfold is_identifier_char. rewrite Ec. reflexivity.
    + exfalso; exact (identifier_no_panic _ _ E).
Qed.

(** Re-parsing the canonical form of an accepted expression without backslashes. *)
Lemma reparse : forall s ts, s <> [] -> ~ In 92 s -> parse_path_exp ua un s = Ok ts ->
  parse_path_exp ua un (build_expr ts) = Ok ts.
Proof.
  intros s ts Hne Hb H. apply parse_inv in H; [|exact Hne]. destruct H as (us & -> & Hus).
  apply parse_print. eapply Forall_impl; [|exact Hus].
  intros t Ht. destruct t; simpl in *; auto. destruct Ht as (A & B & C).
  split; [exact A|]. split; [exact B|]. intro Hx; apply Hb, C, Hx.
Qed.

End WithUnicode.

(** * Injectivity of the string form *)

Lemma escape_key_split : forall k k' r r',
  escape_key k ++ 39 :: r = escape_key k' ++ 39 :: r' -> k = k' /\ r = r'.
Proof.
  induction k as [|c k IH]; intros k' r r' H.
  - destruct k' as [|c' k']; [inversion H; auto|]. cbn [escape_key app] in H.
    destruct (N.eqb_spec c' 92) as [->|]; cbn [orb] in H.
    + cbn [app] in H. inversion H.
    + destruct (N.eqb_spec c' 39) as [->|]; cbn [app] in H; inversion H; congruence.
  - destruct k' as [|c' k'].
    + cbn [escape_key app] in H.
      destruct (N.eqb_spec c 92) as [->|]; cbn [orb] in H.
      * cbn [app] in H. inversion H.
      * destruct (N.eqb_spec c 39) as [->|]; cbn [app] in H; inversion H; congruence.
    + cbn [escape_key] in H.
      destruct ((c =? 92) || (c =? 39)) eqn:E1; destruct ((c' =? 92) || (c' =? 39)) eqn:E2; cbn [app] in H.
      * inversion H; subst. destruct (IH _ _ _ H2) as [-> ->]. auto.
      * inversion H; subst. cbn in E2. discriminate.
      * inversion H; subst. cbn in E1. discriminate.
      * inversion H; subst. destruct (IH _ _ _ H2) as [-> ->]. auto.
Qed.

(** What can follow a token's text in any [build_expr] output. *)
Definition stops3 (rest : str) : Prop :=
  match rest with [] => True | c :: _ => c = 46 \/ c = 91 \/ c = 36 end.

Lemma build_expr_stops3 : forall ts, stops3 (build_expr ts).
Proof.
  intros [|t ts]; [exact I|]. cbn [build_expr].
  destruct t; simpl; auto. unfold obj_key_for_path. destruct (ident_match name); simpl; auto.
Qed.

Lemma ident_split : forall s s' r r', forallb ident_rest s = true -> forallb ident_rest s' = true ->
  stops3 r -> stops3 r' -> s ++ r = s' ++ r' -> s = s' /\ r = r'.
Proof.
  induction s as [|c s IH]; intros [|c' s'] r r' Hs Hs' Hr Hr' H.
  - auto.
  - exfalso. simpl in H. subst r. cbn [forallb] in Hs'. apply andb_true_iff in Hs'. destruct Hs' as [Hc _].
    apply ident_rest_cases in Hc. simpl in Hr. lia.
  - exfalso. simpl in H. subst r'. cbn [forallb] in Hs. apply andb_true_iff in Hs. destruct Hs as [Hc _].
    apply ident_rest_cases in Hc. simpl in Hr'. lia.
  - cbn [app] in H. inversion H; subst. cbn [forallb] in Hs, Hs'.
    apply andb_true_iff in Hs, Hs'. destruct Hs as [_ Hs], Hs' as [_ Hs'].
    destruct (IH _ _ _ Hs Hs' Hr Hr' H2) as [-> ->]. auto.
Qed.

Lemma ident_match_rest : forall s, ident_match s = true -> forallb ident_rest s = true.
Proof.
  intros [|c s] H; [discriminate|]. cbn [ident_match] in H. apply andb_true_iff in H. destruct H as [H1 H2].
  cbn [forallb]. rewrite (ident_start_rest _ H1), H2. reflexivity.
Qed.

Lemma digits_split : forall s s' r r', forallb is_digit s = true -> forallb is_digit s' = true ->
  s ++ 93 :: r = s' ++ 93 :: r' -> s = s' /\ r = r'.
Proof.
  induction s as [|c s IH]; intros [|c' s'] r r' Hs Hs' H; cbn [app] in H.
  - inversion H; auto.
  - inversion H; subst. cbn in Hs'. discriminate.
  - inversion H; subst. cbn in Hs. discriminate.
  - inversion H; subst. cbn [forallb] in Hs, Hs'. apply andb_true_iff in Hs, Hs'.
    destruct (IH _ _ _ (proj2 Hs) (proj2 Hs') H2) as [-> ->]. auto.
Qed.

Lemma show_head_digit : forall i, exists c ds, show_N i = c :: ds /\ 48 <= c <= 57.
Proof.
  intro i. pose proof (show_N_nonempty i). pose proof (show_N_digits i) as D.
  destruct (show_N i) as [|c ds]; [congruence|]. exists c, ds. split; [reflexivity|].
  unfold all_digits in D. cbn [forallb] in D. apply andb_true_iff in D. apply is_digit_range, D.
Qed.

Local Opaque show_N.
Lemma token_expr_split : forall t u r r', stops3 r -> stops3 r' ->
  token_expr t ++ r = token_expr u ++ r' -> t = u /\ r = r'.
Proof.
  intros t u r r' Hr Hr' H.
  destruct t as [|n|i| |], u as [|n'|i'| |]; cbn [token_expr] in H;
    unfold obj_key_for_path in H;
    repeat match type of H with context [ident_match ?x] => destruct (ident_match x) eqn:?E end;
    try (destruct (show_head_digit i) as (ci & di & Ei & Ri));
    try (destruct (show_head_digit i') as (ci' & di' & Ei' & Ri'));
    cbn in H; try discriminate; try (inversion H; subst; auto; fail).
  - inversion H. destruct (ident_split n n' r r') as [-> ->]; auto using ident_match_rest.
  - inversion H. rewrite <- !app_assoc in H1. cbn [app] in H1.
    apply escape_key_split in H1. destruct H1 as [-> H1]. inversion H1; auto.
  - exfalso. rewrite Ei' in H. inversion H. lia.
  - exfalso. inversion H. destruct n as [|c n]; [discriminate E|]. inversion H1; subst.
    cbn in E. discriminate.
  - exfalso. rewrite Ei in H. inversion H. lia.
  - inversion H. rewrite <- !app_assoc in H1. cbn [app] in H1.
    apply digits_split in H1; [|apply show_N_digits|apply show_N_digits].
    destruct H1 as [H1 ->]. apply show_N_inj in H1. subst. auto.
  - exfalso. rewrite Ei in H. inversion H. lia.
  - exfalso. inversion H. destruct n' as [|c n']; [discriminate E|]. inversion H1; subst.
    cbn in E. discriminate.
  - exfalso. rewrite Ei' in H. inversion H. lia.
Qed.

Lemma build_expr_inj : forall ts us, build_expr ts = build_expr us -> ts = us.
Proof.
  induction ts as [|t ts IH]; intros [|u us] H.
  - reflexivity.
  - exfalso. cbn [build_expr] in H. pose proof (token_expr_len u) as L.
    apply (f_equal (@length N)) in H. rewrite app_length in H. simpl in H. lia.
  - exfalso. cbn [build_expr] in H. pose proof (token_expr_len t) as L.
    apply (f_equal (@length N)) in H. rewrite app_length in H. simpl in H. lia.
  - cbn [build_expr] in H.
    apply token_expr_split in H; try apply build_expr_stops3.
    destruct H as [-> H]. f_equal. apply IH, H.
Qed.

(** * Canonical string form as an invariant *)

Lemma build_expr_app : forall a b, build_expr (a ++ b) = build_expr a ++ build_expr b.
Proof. induction a; intros; cbn [build_expr app]; [reflexivity|]. rewrite IHa, app_assoc. reflexivity. Qed.

Definition canonical (p : docpath) : Prop := path_expr p = build_expr (path_tokens p).

Lemma push_canonical : forall p t, canonical p -> canonical (push p t).
Proof.
  intros p t H. unfold canonical, push in *. cbn [path_expr path_tokens].
  rewrite build_expr_app, H. cbn [build_expr]. rewrite app_nil_r. reflexivity.
Qed.

Lemma from_tokens_canonical : forall ts, canonical (from_tokens ts).
Proof. reflexivity. Qed.

Lemma push_path_canonical : forall q p, canonical p -> canonical (push_path p q).
Proof.
  intros q. unfold push_path. induction (path_tokens q) as [|t ts IH]; intros p H; [exact H|].
  cbn [fold_left]. apply IH. destruct t; auto using push_canonical.
Qed.

Lemma push_path_tokens : forall q p, path_tokens (push_path p q) =
  path_tokens p ++ filter (fun t => match t with TRoot => false | _ => true end) (path_tokens q).
Proof.
  intros q. unfold push_path. induction (path_tokens q) as [|t ts IH]; intros p.
  - cbn. rewrite app_nil_r. reflexivity.
  - cbn [fold_left filter]. rewrite IH. destruct t; auto; cbn [push path_tokens];
    rewrite <- app_assoc; reflexivity.
Qed.

(** * Weights *)

Lemma two64_nz : two64 <> 0.
Proof. intro H; vm_compute in H; discriminate. Qed.


Lemma matches_token_cases : forall f t, matches_token f t = 0 \/ matches_token f t = 1 \/ matches_token f t = 2.
Proof.
  intros f t. destruct t; cbn [matches_token];
    repeat match goal with
           | |- context [if ?b then _ else _] => destruct b
           | |- context [match parse_usize ?x with _ => _ end] => destruct (parse_usize x)
           end; auto.
Qed.

Fixpoint weight_product (ts : list token) (path : list str) : N :=
  match ts, path with
  | t :: ts', f :: path' => matches_token f t * weight_product ts' path'
  | _, _ => 1
  end.

Lemma weight_fold_product : forall ts path acc,
  acc < two64 -> weight_fold ts path acc = (acc * weight_product ts path) mod two64.
Proof.
  induction ts as [|t ts IH]; intros path acc Ha.
  - cbn. rewrite N.mul_1_r, N.mod_small; auto.
  - destruct path as [|f path].
    + cbn. rewrite N.mul_1_r, N.mod_small; auto.
    + cbn [weight_fold weight_product]. rewrite IH by (apply N.mod_lt, two64_nz).
      rewrite N.mul_mod_idemp_l by apply two64_nz. f_equal. lia.
Qed.

(** Exact (weight 2) steps of an expression are the non-wildcard ones. *)
Definition is_exact (t : token) : bool :=
  match t with TStar | TStarIndex => false | _ => true end.
Definition exact_count (ts : list token) : nat := length (filter is_exact ts).

Lemma matches_token_value : forall f t, matches_token f t <> 0 ->
  matches_token f t = if is_exact t then 2 else 1.
Proof.
  intros f t. destruct t; cbn [matches_token is_exact];
    repeat match goal with
           | |- context [if ?b then _ else _] => destruct b
           | |- context [match parse_usize ?x with _ => _ end] => destruct (parse_usize x)
           end; congruence.
Qed.

Lemma weight_product_all : forall ts path, (length ts <= length path)%nat ->
  (Forall (fun tf => matches_token (snd tf) (fst tf) <> 0) (combine ts path) ->
   weight_product ts path = 2 ^ N.of_nat (exact_count ts)) /\
  (~ Forall (fun tf => matches_token (snd tf) (fst tf) <> 0) (combine ts path) ->
   weight_product ts path = 0).
Proof.
  induction ts as [|t ts IH]; intros path L.
  - split; intros H; [reflexivity|]. exfalso; apply H; constructor.
  - destruct path as [|f path]; [simpl in L; lia|]. cbn [combine weight_product].
    destruct (IH path) as [IH1 IH2]; [simpl in L; lia|].
    split; intro H.
    + inversion H as [|? ? H1 H2]; subst. cbn [fst snd] in H1.
      rewrite (matches_token_value _ _ H1), (IH1 H2). unfold exact_count. cbn [filter].
      destruct (is_exact t); cbn [length].
      * rewrite Nat2N.inj_succ, N.pow_succ_r'. reflexivity.
      * lia.
    + destruct (N.eq_dec (matches_token f t) 0) as [E|E].
      * rewrite E. reflexivity.
      * rewrite IH2; [lia|]. intro G. apply H. constructor; assumption.
Qed.

Lemma pow2_lt_two64 : forall k, (k < 64)%nat -> 2 ^ N.of_nat k < two64.
Proof. intros k H. rewrite two64_eq. apply N.pow_lt_mono_r; lia. Qed.

Lemma Forall_dec_tokens : forall l : list (token * str),
  {Forall (fun tf => matches_token (snd tf) (fst tf) <> 0) l} +
  {~ Forall (fun tf => matches_token (snd tf) (fst tf) <> 0) l}.
Proof.
  intro l. apply Forall_dec. intros [t f]. cbn [fst snd].
  destruct (N.eq_dec (matches_token f t) 0); [right|left]; auto.
Qed.

Lemma weight_pos : forall ts path, (length ts <= length path)%nat -> (exact_count ts < 64)%nat ->
  Forall (fun tf => matches_token (snd tf) (fst tf) <> 0) (combine ts path) ->
  weight_fold ts path 1 = 2 ^ N.of_nat (exact_count ts).
Proof.
  intros ts path L E H. rewrite weight_fold_product by (vm_compute; reflexivity).
  destruct (weight_product_all ts path L) as [W _]. rewrite (W H), N.mul_1_l.
  apply N.mod_small, pow2_lt_two64, E.
Qed.

Lemma weight_zero : forall ts path, (length ts <= length path)%nat ->
  ~ Forall (fun tf => matches_token (snd tf) (fst tf) <> 0) (combine ts path) ->
  weight_fold ts path 1 = 0.
Proof.
  intros ts path L H. rewrite weight_fold_product by (vm_compute; reflexivity).
  destruct (weight_product_all ts path L) as [_ W]. rewrite (W H). reflexivity.
Qed.

Lemma weight_wraps : forall ts path, (length ts <= length path)%nat -> (64 <= exact_count ts)%nat ->
  weight_fold ts path 1 = 0.
Proof.
  intros ts path L E. destruct (Forall_dec_tokens (combine ts path)) as [H|H]; [|apply weight_zero; auto].
  rewrite weight_fold_product by (vm_compute; reflexivity).
  destruct (weight_product_all ts path L) as [W _]. rewrite (W H), N.mul_1_l.
  replace (N.of_nat (exact_count ts)) with (64 + (N.of_nat (exact_count ts) - 64)) by lia.
  rewrite N.pow_add_r, <- two64_eq, N.mul_comm. apply N.mod_mul, two64_nz.
Qed.

(** * JSON pointers *)

Lemma pointer_none : forall ts, pointer_of ts = None <-> In TStar ts \/ In TStarIndex ts.
Proof.
  induction ts as [|t ts IH]; cbn [pointer_of In].
  - split; [discriminate|intros [[]|[]]].
  - destruct t; try (destruct (pointer_of ts)); try (split; [intro H; try discriminate; auto|intros [[H|H]|[H|H]]; try discriminate; auto]; fail).
    + split; [discriminate|]. intros [[H|H]|[H|H]]; try discriminate; apply IH; auto.
    + split; [|auto]. intros _. destruct IH as [IH _]. destruct (IH eq_refl); auto.
    + split; [discriminate|]. intros [[H|H]|[H|H]]; try discriminate; exfalso; (assert (X : Some s = None) by (apply IH; auto); discriminate X).
    + split; [|auto]. intros _. destruct IH as [IH _]. destruct (IH eq_refl); auto.
    + split; [discriminate|]. intros [[H|H]|[H|H]]; try discriminate; exfalso; (assert (X : Some s = None) by (apply IH; auto); discriminate X).
    + split; [|auto]. intros _. destruct IH as [IH _]. destruct (IH eq_refl); auto.
Qed.
