(** Theorems about provider state expressions and the types they are converted to. *)
From Coq Require Import String List Arith NArith ZArith Lia Bool Floats.SpecFloat.
From Verif Require Import Base Json Text Expr SpecExpr.
Import ListNotations.
Open Scope N_scope.

Local Opaque show_N.

(** * Searching *)
Lemma find_open_pre : forall pre rest, ~ has_open pre ->
  find_open (pre ++ [dollar; open_brace] ++ rest) = Some (length pre).
Proof.
  induction pre as [|c pre IH]; intros rest H; [reflexivity|].
  change ((c :: pre) ++ [dollar; open_brace] ++ rest) with (c :: (pre ++ [dollar; open_brace] ++ rest)).
  cbn [find_open length].
  assert (Hp : ~ has_open pre).
  { intros (a & b & E). apply H. exists (c :: a), b. rewrite E. reflexivity. }
  rewrite (IH rest Hp). cbn [option_map].
  assert (F : (c =? 36) && match pre ++ [dollar; open_brace] ++ rest with d :: _ => d =? 123 | [] => false end = false).
  { destruct (N.eqb_spec c 36) as [->|]; [|reflexivity]. cbn [andb].
    destruct pre as [|d pre]; cbn [app]; [reflexivity|].
    destruct (N.eqb_spec d 123) as [->|]; [|reflexivity].
    exfalso. apply H. exists [], pre. reflexivity. }
  rewrite F. reflexivity.
Qed.

Lemma find_open_none : forall s, ~ has_open s -> find_open s = None.
Proof.
  induction s as [|c s IH]; intro H; [reflexivity|]. cbn [find_open].
  assert (Hp : ~ has_open s).
  { intros (a & b & E). apply H. exists (c :: a), b. rewrite E. reflexivity. }
  rewrite (IH Hp).
  destruct (N.eqb_spec c 36) as [->|]; [|reflexivity]. cbn [andb].
  destruct s as [|d s]; [reflexivity|].
  destruct (N.eqb_spec d 123) as [->|]; [|reflexivity].
  exfalso. apply H. exists [], s. reflexivity.
Qed.

Lemma find_open_split : forall s,
  (find_open s = None /\ ~ has_open s) \/
  (exists pre rest, s = pre ++ [dollar; open_brace] ++ rest /\ ~ has_open pre).
Proof.
  induction s as [|c s IH].
  { left. split; [reflexivity|]. intros (a & b & E). destruct a; discriminate. }
  destruct ((c =? 36) && match s with d :: _ => d =? 123 | [] => false end) eqn:F.
  - right. apply andb_true_iff in F. destruct F as [C F].
    apply N.eqb_eq in C. subst c. destruct s as [|d s]; [discriminate|].
    apply N.eqb_eq in F. subst d. exists [], s. split; [reflexivity|].
    intros (a & b & E). destruct a; discriminate.
  - destruct IH as [[E N]|(pre & rest & E & N)].
    + left. split; [cbn [find_open]; rewrite F, E; reflexivity|].
      intros (a & b & X). destruct a as [|x a]; cbn [app] in X; injection X as X1 X2.
      * subst c s. cbn in F. discriminate.
      * subst. apply N. exists a, b. reflexivity.
    + right. exists (c :: pre), rest. split; [rewrite E; reflexivity|].
      intros (a & b & X). destruct a as [|x a]; cbn [app] in X; injection X as X1 X2.
      * subst. cbn in F. discriminate.
      * subst. apply N. exists a, b. reflexivity.
Qed.

Lemma find_char_pre : forall c pre rest, ~ In c pre -> find_char c (pre ++ [c] ++ rest) = Some (length pre).
Proof.
  induction pre as [|d pre IH]; intros rest H; cbn [app find_char length].
  - rewrite N.eqb_refl. reflexivity.
  - destruct (N.eqb_spec d c) as [->|Ne]; [exfalso; apply H; left; reflexivity|].
    cbn [app] in IH. rewrite IH; [reflexivity|]. intro I. apply H. right. exact I.
Qed.

Lemma find_char_none : forall c s, ~ In c s -> find_char c s = None.
Proof.
  induction s as [|d s IH]; intro H; cbn [find_char]; [reflexivity|].
  destruct (N.eqb_spec d c) as [->|Ne]; [exfalso; apply H; left; reflexivity|].
  rewrite IH; [reflexivity|]. intro I. apply H. right. exact I.
Qed.

Lemma in_split_first : forall (c : N) s, In c s -> exists a b, s = a ++ [c] ++ b /\ ~ In c a.
Proof.
  induction s as [|d s IH]; intro H; [destruct H|].
  destruct (N.eq_dec d c) as [->|Ne].
  - exists [], s. split; [reflexivity|]. intros [].
  - destruct H as [H|H]; [contradiction|]. destruct (IH H) as (a & b & E & Na).
    exists (d :: a), b. split; [rewrite E; reflexivity|]. intros [X|X]; contradiction.
Qed.

Lemma no_close_markers : ~ In close_brace [dollar; open_brace].
Proof. unfold close_brace, dollar, open_brace. intros [H|[H|[]]]; discriminate. Qed.

(** * One round *)
Lemma skip_to : forall (a b : str) n, n = length a -> skipn n (a ++ b) = b.
Proof. intros a b n ->. rewrite skipn_app, skipn_all, Nat.sub_diag. reflexivity. Qed.
Lemma take_to : forall (a b : str) n, n = length a -> firstn n (a ++ b) = a.
Proof. intros a b n ->. rewrite firstn_app, firstn_all, Nat.sub_diag. cbn. apply app_nil_r. Qed.

Definition text_value (t : str) : list json := match t with [] => [] | _ => [JStr t] end.

Lemma pre_value : forall (pre tl : str) result,
  (if (0 <? length pre)%nat then result ++ [JStr (firstn (length pre) (pre ++ tl))] else result) = result ++ text_value pre.
Proof.
  intros pre tl result. rewrite (take_to pre tl _ eq_refl).
  destruct pre; cbn; [rewrite app_nil_r|]; reflexivity.
Qed.

Lemma expand_panics : forall ctx f pre rest result,
  ~ has_open pre -> In close_brace pre ->
  expand ctx (S f) (pre ++ [dollar; open_brace] ++ rest) result = Panic.
Proof.
  intros ctx f pre rest result Ho Hc. cbn [expand]. rewrite (find_open_pre pre rest Ho).
  destruct (in_split_first _ _ Hc) as (a & b & E & Na). subst pre.
  assert (FC : find_char 125 ((a ++ [close_brace] ++ b) ++ [dollar; open_brace] ++ rest) = Some (length a)).
  { rewrite <- !app_assoc. exact (find_char_pre 125 a (b ++ [dollar; open_brace] ++ rest) Na). }
  rewrite FC.
  assert (L : (length a <? length (a ++ [close_brace] ++ b))%nat = true).
  { apply Nat.ltb_lt. rewrite !app_length. cbn [length]. lia. }
  rewrite L. reflexivity.
Qed.

Lemma expand_unclosed : forall ctx f pre rest result,
  ~ has_open pre -> ~ In close_brace pre -> ~ In close_brace rest ->
  expand ctx (S f) (pre ++ [dollar; open_brace] ++ rest) result = Err tt.
Proof.
  intros ctx f pre rest result Ho Hc Hr. cbn [expand]. rewrite (find_open_pre pre rest Ho).
  rewrite find_char_none; [reflexivity|].
  intro I. apply in_app_or in I. destruct I as [I|I]; [contradiction|].
  apply in_app_or in I. destruct I as [I|I]; [exact (no_close_markers I)|contradiction].
Qed.

Lemma expand_ref : forall ctx f pre name rest result,
  ~ has_open pre -> ~ In close_brace pre -> ~ In close_brace name ->
  expand ctx (S f) (pre ++ [dollar; open_brace] ++ name ++ [close_brace] ++ rest) result =
  match name with
  | [] => expand ctx f rest (result ++ text_value pre)
  | _ => match ctx name with
         | Some v => expand ctx f rest (result ++ text_value pre ++ [v])
         | None => Err tt
         end
  end.
Proof.
  intros ctx f pre name rest result Ho Hc Hn. cbn [expand].
  rewrite (find_open_pre pre _ Ho).
  assert (FC : find_char 125 (pre ++ [dollar; open_brace] ++ name ++ [close_brace] ++ rest)
               = Some (length pre + 2 + length name)%nat).
  { replace (pre ++ [dollar; open_brace] ++ name ++ [close_brace] ++ rest)
      with ((pre ++ [dollar; open_brace] ++ name) ++ [125] ++ rest)
      by (rewrite <- !app_assoc; reflexivity).
    rewrite find_char_pre.
    - f_equal. rewrite !app_length. cbn [length]. lia.
    - intro I. apply in_app_or in I. destruct I as [I|I]; [contradiction|].
      apply in_app_or in I. destruct I as [I|I]; [exact (no_close_markers I)|contradiction]. }
  rewrite FC.
  assert (L : (length pre + 2 + length name <? length pre)%nat = false) by (apply Nat.ltb_ge; lia).
  rewrite L.
  rewrite (pre_value pre ([dollar; open_brace] ++ name ++ [close_brace] ++ rest) result).
  assert (SK : skipn (length pre + 2 + length name + 1)
                 (pre ++ [dollar; open_brace] ++ name ++ [close_brace] ++ rest) = rest).
  { replace (pre ++ [dollar; open_brace] ++ name ++ [close_brace] ++ rest)
      with ((pre ++ [dollar; open_brace] ++ name ++ [close_brace]) ++ rest)
      by (rewrite <- !app_assoc; reflexivity).
    apply skip_to. rewrite !app_length. cbn [length]. lia. }
  rewrite SK.
  assert (KEY : firstn (length pre + 2 + length name - (length pre + 2))
                  (skipn (length pre + 2) (pre ++ [dollar; open_brace] ++ name ++ [close_brace] ++ rest)) = name).
  { replace (pre ++ [dollar; open_brace] ++ name ++ [close_brace] ++ rest)
      with ((pre ++ [dollar; open_brace]) ++ (name ++ [close_brace] ++ rest))
      by (rewrite <- !app_assoc; reflexivity).
    rewrite skip_to by (rewrite app_length; cbn [length]; lia).
    apply take_to. lia. }
  rewrite KEY.
  destruct name as [|c name].
  - replace (2 <? length pre + 2 + length (@nil N) - length pre)%nat with false; [reflexivity|].
    symmetry. apply Nat.ltb_ge. cbn [length]. lia.
  - replace (2 <? length pre + 2 + length (c :: name) - length pre)%nat with true.
    + destruct (ctx (c :: name)); [|reflexivity]. rewrite <- app_assoc. reflexivity.
    + symmetry. apply Nat.ltb_lt. cbn [length]. lia.
Qed.

(** * All rounds *)
Lemma values_text : forall ctx t ps, values_of ctx (Text t :: ps) = text_value t ++ values_of ctx ps.
Proof. intros ctx [|c t] ps; reflexivity. Qed.

Lemma expand_complete : forall ctx front ps, complete front ps -> known ctx ps ->
  forall tail fuel result, (length front + length tail < fuel)%nat ->
  exists fuel', (length tail < fuel')%nat /\
    expand ctx fuel (front ++ tail) result = expand ctx fuel' tail (result ++ values_of ctx ps).
Proof.
  intros ctx front ps C. induction C as [|pre name rest ps Ho Hc Hn C IH]; intros K tail fuel result L.
  - exists fuel. split; [cbn [length] in L; lia|]. cbn. rewrite app_nil_r. reflexivity.
  - destruct fuel as [|fuel]; [lia|].
    inversion K as [|x l _ K']; subst. inversion K' as [|x l Kn Ks]; subst.
    rewrite <- !app_assoc. rewrite (expand_ref ctx fuel pre name (rest ++ tail) result Ho Hc Hn).
    rewrite values_text.
    destruct name as [|c name].
    + destruct (IH Ks tail fuel (result ++ text_value pre)) as (f' & Lf & E).
      { rewrite !app_length in L. cbn [length] in L. lia. }
      exists f'. split; [exact Lf|]. rewrite E. cbn [values_of flat_map app].
      rewrite <- app_assoc. reflexivity.
    + destruct Kn as [X|(v & Ev)]; [discriminate|].
      rewrite Ev.
      destruct (IH Ks tail fuel (result ++ text_value pre ++ [v])) as (f' & Lf & E).
      { rewrite !app_length in L. cbn [length] in L. lia. }
      exists f'. split; [exact Lf|]. rewrite E. cbn [values_of flat_map app]. rewrite Ev.
      rewrite <- !app_assoc. reflexivity.
Qed.

Definition ends_well (ctx : context) (s : str) (vs : list json) (tail : str) : Prop :=
  exists front ps, s = front ++ tail /\ complete front ps /\ known ctx ps /\ ~ has_open tail /\ vs = values_of ctx ps.

Lemma classify : forall ctx n s, (length s <= n)%nat ->
  (exists vs tail, ends_well ctx s vs tail) \/ stray_brace ctx s \/ unresolved ctx s.
Proof.
  intro ctx. induction n as [|n IH]; intros s L.
  - destruct s; [|cbn in L; lia]. left. exists [], [], [], []. repeat split; try constructor.
    intros (a & b & E). destruct a; discriminate.
  - destruct (find_open_split s) as [[_ No]|(pre & rest & E & Ho)].
    + left. exists [], s, [], []. repeat split; try constructor. exact No.
    + destruct (in_dec N.eq_dec close_brace pre) as [Hc|Hc].
      { right. left. exists [], [], pre, rest. repeat split; try constructor; assumption. }
      destruct (in_dec N.eq_dec close_brace rest) as [Hr|Hr].
      2:{ right. right. exists [], [], pre, rest.
          split; [exact E|]. split; [constructor|]. split; [constructor|]. split; [exact Ho|]. split; [exact Hc|].
          left. exact Hr. }
      destruct (in_split_first _ _ Hr) as (name & rest' & E' & Hn).
      assert (Kn : name = [] \/ (exists v, ctx name = Some v) \/ (name <> [] /\ ctx name = None)).
      { destruct name as [|c name]; [left; reflexivity|].
        destruct (ctx (c :: name)) as [v|] eqn:Ec; [right; left; exists v; reflexivity|].
        right. right. split; [discriminate|reflexivity]. }
      assert (Kp : (name <> [] /\ ctx name = None) \/ known ctx [Text pre; Value name]).
      { destruct Kn as [Kn|[Kn|Kn]]; [right|right|left; exact Kn];
          (apply Forall_cons; [exact I|apply Forall_cons; [auto|apply Forall_nil]]). }
      destruct Kp as [[Nn Cn]|Kp].
      { right. right. exists [], [], pre, rest.
        split; [exact E|]. split; [constructor|]. split; [constructor|]. split; [exact Ho|]. split; [exact Hc|].
        right. exists name, rest'. repeat split; assumption. }
      assert (Es : s = pre ++ [dollar; open_brace] ++ name ++ [close_brace] ++ rest') by (rewrite E, E'; reflexivity).
      assert (L' : (length rest' <= n)%nat).
      { rewrite Es in L. rewrite !app_length in L. cbn [length] in L. lia. }
      assert (KK : forall ps, known ctx ps -> known ctx (Text pre :: Value name :: ps)).
      { intros ps K. inversion Kp as [|x l K1 K2]; subst. inversion K2 as [|x l K3 K4]; subst.
        apply Forall_cons; [exact K1|]. apply Forall_cons; [exact K3|exact K]. }
      destruct (IH rest' L') as [(vs & tail & front & ps & E2 & C & K & No & V)|[(front & ps & pre2 & rest2 & E2 & C & K & No & Hb)|(front & ps & pre2 & rest2 & E2 & C & K & No & Hb & D)]].
      * left. exists (values_of ctx (Text pre :: Value name :: ps)), tail,
          (pre ++ [dollar; open_brace] ++ name ++ [close_brace] ++ front), (Text pre :: Value name :: ps).
        repeat split; try assumption.
        -- rewrite Es, E2, <- !app_assoc. reflexivity.
        -- constructor; assumption.
        -- apply KK; exact K.
      * right. left. exists (pre ++ [dollar; open_brace] ++ name ++ [close_brace] ++ front), (Text pre :: Value name :: ps), pre2, rest2.
        repeat split; try assumption.
        -- rewrite Es, E2, <- !app_assoc. reflexivity.
        -- constructor; assumption.
        -- apply KK; exact K.
      * right. right. exists (pre ++ [dollar; open_brace] ++ name ++ [close_brace] ++ front), (Text pre :: Value name :: ps), pre2, rest2.
        repeat split; try assumption.
        -- rewrite Es, E2, <- !app_assoc. reflexivity.
        -- constructor; assumption.
        -- apply KK; exact K.
Qed.

Lemma expand_ends_well : forall ctx s vs tail, ends_well ctx s vs tail ->
  expand ctx (S (length s)) s [] = Ok (vs, tail).
Proof.
  intros ctx s vs tail (front & ps & E & C & K & No & ->). subst s.
  destruct (expand_complete ctx front ps C K tail (S (length (front ++ tail))) []) as (f & Lf & X).
  { rewrite <- app_length. apply Nat.lt_succ_diag_r. }
  rewrite X. destruct f as [|f]; [lia|]. cbn [expand]. rewrite (find_open_none tail No). reflexivity.
Qed.
Lemma expand_stray : forall ctx s, stray_brace ctx s -> expand ctx (S (length s)) s [] = Panic.
Proof.
  intros ctx s (front & ps & pre & rest & E & C & K & No & Hb). subst s.
  destruct (expand_complete ctx front ps C K (pre ++ [dollar; open_brace] ++ rest)
    (S (length (front ++ pre ++ [dollar; open_brace] ++ rest))) []) as (f & Lf & X).
  { rewrite <- app_length. apply Nat.lt_succ_diag_r. }
  rewrite X. destruct f as [|f]; [lia|]. apply expand_panics; assumption.
Qed.
Lemma expand_unresolved : forall ctx s, unresolved ctx s -> expand ctx (S (length s)) s [] = Err tt.
Proof.
  intros ctx s (front & ps & pre & rest & E & C & K & No & Hb & D). subst s.
  destruct (expand_complete ctx front ps C K (pre ++ [dollar; open_brace] ++ rest)
    (S (length (front ++ pre ++ [dollar; open_brace] ++ rest))) []) as (f & Lf & X).
  { rewrite <- app_length. apply Nat.lt_succ_diag_r. }
  rewrite X. destruct f as [|f]; [lia|].
  destruct D as [D|(name & rest' & -> & Hn & Nn & Cn)].
  - apply expand_unclosed; assumption.
  - rewrite expand_ref by assumption. destruct name; [contradiction|]. rewrite Cn. reflexivity.
Qed.

Lemma flat_map_concat : forall w vs, flat_map (json_to_string w) vs = concat (map (json_to_string w) vs).
Proof. intros w vs. apply flat_map_concat_map. Qed.

Lemma values_of_app : forall ctx a b, values_of ctx (a ++ b) = values_of ctx a ++ values_of ctx b.
Proof. intros. unfold values_of. apply flat_map_app. Qed.

Lemma parse_ends_well : forall ctx w s vs tail, ends_well ctx s vs tail ->
  parse_expression ctx w s = Ok (stands_for w (vs ++ text_value tail)).
Proof.
  intros ctx w s vs tail H. unfold parse_expression, contains_expressions.
  destruct (find_open s) eqn:F.
  - unfold replace_expressions. rewrite (expand_ends_well ctx s vs tail H). cbn [bind].
    replace (match tail with [] => vs | _ :: _ => vs ++ [JStr tail] end) with (vs ++ text_value tail)
      by (destruct tail; [apply app_nil_r|reflexivity]).
    destruct (vs ++ text_value tail) as [|v [|v' l]]; cbn [stands_for]; rewrite <- ?flat_map_concat; reflexivity.
  - pose proof (expand_ends_well ctx s vs tail H) as X. cbn [expand] in X. rewrite F in X.
    injection X as <- <-. destruct s; reflexivity.
Qed.

(** C68: an expression whose names are all known stands for its values. *)
Theorem C68_expression_is_expanded : forall ctx w s ps,
  expression s ps -> known ctx ps -> parse_expression ctx w s = Ok (stands_for w (values_of ctx ps)).
Proof.
  intros ctx w s ps (front & tail & ps' & E & C & No & ->) K.
  assert (K' : known ctx ps') by (apply Forall_app in K; exact (proj1 K)).
  rewrite (parse_ends_well ctx w s (values_of ctx ps') tail).
  - rewrite values_of_app. destruct tail; reflexivity.
  - exists front, ps'. repeat split; assumption.
Qed.

(** C68: and only such texts give a value. *)
Theorem C68_gives_a_value_exactly_when : forall ctx w s v,
  parse_expression ctx w s = Ok v <->
  exists ps, expression s ps /\ known ctx ps /\ v = stands_for w (values_of ctx ps).
Proof.
  intros ctx w s v. split.
  - intro H. destruct (classify ctx (length s) s (le_n _)) as [(vs & tail & W)|[X|X]].
    + pose proof (parse_ends_well ctx w s vs tail W) as Y. rewrite H in Y. injection Y as ->.
      destruct W as (front & ps & E & C & K & No & ->).
      exists (ps ++ [Text tail]). split; [exists front, tail, ps; repeat split; assumption|].
      split; [apply Forall_app; split; [exact K|apply Forall_cons; [exact I|apply Forall_nil]]|].
      rewrite values_of_app. destruct tail; reflexivity.
    + unfold parse_expression in H. pose proof (expand_stray ctx s X) as Y.
      destruct (contains_expressions s) eqn:F.
      * unfold replace_expressions in H. rewrite Y in H. discriminate.
      * unfold contains_expressions in F. cbn [expand] in Y. destruct (find_open s); discriminate.
    + unfold parse_expression in H. pose proof (expand_unresolved ctx s X) as Y.
      destruct (contains_expressions s) eqn:F.
      * unfold replace_expressions in H. rewrite Y in H. discriminate.
      * unfold contains_expressions in F. cbn [expand] in Y. destruct (find_open s); discriminate.
  - intros (ps & E & K & ->). apply C68_expression_is_expanded; assumption.
Qed.

(** C68: expanding aborts exactly when a closing brace stands before a "${". *)
Theorem C68_aborts_exactly_when : forall ctx w s,
  parse_expression ctx w s = Panic <-> stray_brace ctx s.
Proof.
  intros ctx w s. split.
  - intro H. destruct (classify ctx (length s) s (le_n _)) as [(vs & tail & W)|[X|X]]; [| exact X |].
    + rewrite (parse_ends_well ctx w s vs tail W) in H. discriminate.
    + unfold parse_expression in H. pose proof (expand_unresolved ctx s X) as Y.
      destruct (contains_expressions s) eqn:F; [|discriminate].
      unfold replace_expressions in H. rewrite Y in H. discriminate.
  - intro X. pose proof (expand_stray ctx s X) as Y. unfold parse_expression.
    destruct (contains_expressions s) eqn:F.
    + unfold replace_expressions. rewrite Y. reflexivity.
    + unfold contains_expressions in F. cbn [expand] in Y. destruct (find_open s); discriminate.
Qed.

(** C68: failure is reported exactly for unknown names and unclosed references. *)
Theorem C68_fails_exactly_when : forall ctx w s,
  parse_expression ctx w s = Err tt <-> unresolved ctx s.
Proof.
  intros ctx w s. split.
  - intro H. destruct (classify ctx (length s) s (le_n _)) as [(vs & tail & W)|[X|X]]; [| | exact X].
    + rewrite (parse_ends_well ctx w s vs tail W) in H. discriminate.
    + rewrite (proj2 (C68_aborts_exactly_when ctx w s) X) in H. discriminate.
  - intro X. pose proof (expand_unresolved ctx s X) as Y. unfold parse_expression.
    destruct (contains_expressions s) eqn:F.
    + unfold replace_expressions. rewrite Y. reflexivity.
    + unfold contains_expressions in F. cbn [expand] in Y. destruct (find_open s); discriminate.
Qed.

(** C68: a generator's expression without "${" is the name of a value of the provider state. *)
Theorem C68_plain_expression_is_a_name : forall ctx w s v,
  ~ has_open s -> (value_from_context ctx w s = Ok v <-> ctx s = Some v).
Proof.
  intros ctx w s v H. unfold value_from_context, contains_expressions.
  rewrite (find_open_none s H). destruct (ctx s); split; intro E; try discriminate; congruence.
Qed.
Theorem C68_other_expressions_are_expanded : forall ctx w s,
  has_open s -> value_from_context ctx w s = parse_expression ctx w s.
Proof.
  intros ctx w s H. unfold value_from_context, contains_expressions.
  destruct (find_open_split s) as [[_ N]|(pre & rest & E & Ho)]; [contradiction|].
  subst s. rewrite (find_open_pre pre rest Ho). reflexivity.
Qed.

Definition ex_ctx : context := fun n => if str_eqb n (S_ "id") then Some (JNum (PosInt 7)) else None.

Example C68_example_value : forall w, parse_expression ex_ctx w (S_ "${id}") = Ok (JNum (PosInt 7)).
Proof. reflexivity. Qed.
Example C68_example_text : forall w, parse_expression ex_ctx w (S_ "/users/${id}/${}x}") = Ok (JStr (S_ "/users/7/x}")).
Proof. intro w. Local Transparent show_N. reflexivity. Local Opaque show_N. Qed.
Example C68_example_pieces : expression (S_ "a${id}") [Text (S_ "a"); Value (S_ "id"); Text []] /\
                             known ex_ctx [Text (S_ "a"); Value (S_ "id"); Text []].
Proof.
  split.
  - exists (S_ "a${id}"), [], [Text (S_ "a"); Value (S_ "id")].
    split; [reflexivity|]. split.
    + apply (complete_ref (S_ "a") (S_ "id") [] []); try constructor.
      * intros (a & b & E). destruct a as [|? [|? ?]]; discriminate.
      * intros [H|[]]; discriminate.
      * intros [H|[H|[]]]; discriminate.
    + split; [intros (a & b & E); destruct a; discriminate|reflexivity].
  - apply Forall_cons; [exact I|]. apply Forall_cons; [right; exists (JNum (PosInt 7)); reflexivity|].
    apply Forall_cons; [exact I|apply Forall_nil].
Qed.
Example C68_example_abort : forall w, parse_expression ex_ctx w (S_ "a}${id}") = Panic.
Proof. reflexivity. Qed.
