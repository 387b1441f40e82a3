(** Formats and the fields of values: parse_pattern is [writes], the fields are [fits]. *)
From Coq Require Import Ascii String List Arith NArith ZArith Lia Bool.
From Verif Require Import Base Text Calendar TimeFormat SpecTimeFormat TimeFormatProofs.
Import ListNotations.
Open Scope N_scope.
Local Opaque show_N.

(** * Letters *)
Lemma at_most_some : forall k n t u, at_most k n t = Some u <-> (n <= k)%nat /\ u = t.
Proof.
  intros k n t u; unfold at_most. destruct (Nat.leb_spec n k); split.
  - intros [= <-]; auto.
  - intros (_ & ->); reflexivity.
  - discriminate.
  - lia.
Qed.
Definition by_letter (e : string * option nat * (nat -> token)) (n : nat) : option token :=
  match snd (fst e) with Some k => at_most k n (snd e n) | None => Some (snd e n) end.
Fixpoint look (c : N) (n : nat) (l : list (string * option nat * (nat -> token))) : option token :=
  match l with
  | [] => None
  | e :: l' => if str_eqb (S_ (fst (fst e))) [c] then by_letter e n else look c n l'
  end.
Lemma letter_token_look : forall c n, letter_token c n = look c n letters.
Proof.
  intros c n; unfold letter_token, letters, look, by_letter; cbn [fst snd S_ str_eqb].
  repeat match goal with |- context [N_of_ascii ?a] => let v := eval vm_compute in (N_of_ascii a) in change (N_of_ascii a) with v end.
  rewrite !andb_true_r. rewrite !(N.eqb_sym _ c).
  repeat (match goal with |- context [c =? ?v] => destruct (N.eqb_spec c v) as [->|_]; [reflexivity|cbn [orb]] end).
  reflexivity.
Qed.
Definition once (l : list (string * option nat * (nat -> token))) : bool :=
  (fix go l := match l with [] => true | e :: l' => negb (existsb (fun f => String.eqb (fst (fst e)) (fst (fst f))) l') && go l' end) l.
Lemma S_inj : forall a b, S_ a = S_ b -> a = b.
Proof.
  induction a as [|x a IH]; intros [|y b] E; try discriminate; [reflexivity|]. cbn in E. inversion E as [[H1 H2]].
  apply (f_equal ascii_of_N) in H1. rewrite !ascii_N_embedding in H1. subst. f_equal; auto.
Qed.
Lemma look_in : forall c n l t, once l = true ->
  (look c n l = Some t <-> exists e, In e l /\ S_ (fst (fst e)) = [c] /\ by_letter e n = Some t).
Proof.
  intros c n l t; induction l as [|e l IH]; intro O1.
  - simpl; split; [discriminate|]. intros (e & [] & _).
  - cbn in O1. apply andb_true_iff in O1 as (Ne & O1). cbn [look]. destruct (str_eqb_spec (S_ (fst (fst e))) [c]) as [Ec|Ec].
    + split.
      * intro B. exists e; simpl; auto.
      * intros (f & [->|I] & Ef & B); [exact B|exfalso].
        assert (fst (fst e) = fst (fst f)) by (apply S_inj; congruence).
        apply negb_true_iff in Ne. assert (existsb (fun f => String.eqb (fst (fst e)) (fst (fst f))) l = true); [|congruence].
        apply existsb_exists. exists f; split; [exact I|]. apply String.eqb_eq; assumption.
    + rewrite (IH O1). split.
      * intros (f & I & H). exists f; simpl; auto.
      * intros (f & [->|I] & H); [destruct H; contradiction|eauto].
Qed.
Lemma letter_token_meaning : forall c n t, (1 <= n)%nat -> (letter_token c n = Some t <-> meaning c n t).
Proof.
  intros c n t Hn. rewrite letter_token_look, (look_in c n letters t eq_refl). unfold meaning, by_letter. split.
  - intros (((l & k) & f) & I & E & B). split; [exact Hn|]. exists l, k, f. cbn [fst snd] in *. destruct k as [k|].
    + apply at_most_some in B as (B & ->). auto.
    + inversion B; auto.
  - intros (_ & l & k & f & I & E & -> & B). exists (l, k, f). cbn [fst snd]. repeat split; auto. destruct k as [k|]; [|reflexivity].
    apply at_most_some; auto.
Qed.
Lemma meaning_alpha : forall c n t, meaning c n t -> ascii_alpha c = true.
Proof.
  intros c n t (_ & l & k & f & I & E & _).
  assert (G : forallb (fun e => match S_ (fst (fst e)) with [d] => ascii_alpha d | _ => true end) letters = true) by (vm_compute; reflexivity).
  rewrite forallb_forall in G. specialize (G _ I). cbn [fst] in G. rewrite E in G. exact G.
Qed.

(** * Texts *)
Lemma plain_table : forall c, plain c = negb (existsb (N.eqb c) reserved).
Proof.
  intro c. destruct (N.ltb_spec c 128) as [L|L].
  - assert (G : forallb (fun k => Bool.eqb (plain (N.of_nat k)) (negb (existsb (N.eqb (N.of_nat k)) reserved))) (List.seq 0 128) = true) by (vm_compute; reflexivity).
    rewrite forallb_forall in G. specialize (G (N.to_nat c)). rewrite N2Nat.id in G. apply Bool.eqb_prop, G, in_seq. lia.
  - assert (E : existsb (N.eqb c) reserved = false).
    { apply not_true_iff_false. intro E. apply existsb_exists in E as (x & I & E). apply N.eqb_eq in E; subst x.
      assert (G : forallb (fun x => x <? 128) reserved = true) by (vm_compute; reflexivity).
      rewrite forallb_forall in G. specialize (G c I). apply N.ltb_lt in G. lia. }
    rewrite E. unfold plain, ascii_alpha, is_upper, is_lower, is_digit.
    repeat match goal with
      | |- context [c <=? ?k] => replace (c <=? k) with false by (symmetry; apply N.leb_gt; lia)
      | |- context [c =? ?k] => replace (c =? k) with false by (symmetry; apply N.eqb_neq; lia) end.
    rewrite !andb_false_r. reflexivity.
Qed.
Lemma plain_iff : forall c, plain c = true <-> stands_for_itself c.
Proof.
  intro c; rewrite plain_table, negb_true_iff, <- not_true_iff_false, existsb_exists. unfold stands_for_itself. split.
  - intros H I. apply H. exists c; split; [exact I|apply N.eqb_refl].
  - intros H (x & I & E). apply N.eqb_eq in E; subst; auto.
Qed.
Lemma parses_plain : parses (run1 plain) (fun d r => d <> [] /\ Forall stands_for_itself d /\ ~ begins stands_for_itself r).
Proof.
  refine (parses_same _ _ _ _ (run1_spec plain)). intros d r.
  rewrite (forallb_Forall _ _ plain_iff), (not_begins_iff _ _ plain_iff). tauto.
Qed.
Lemma plain_not_alpha : forall c, plain c = true -> ascii_alpha c = false /\ c =? 39 = false.
Proof.
  intros c H. unfold plain in H. apply negb_true_iff in H. rewrite !orb_false_iff in H. tauto.
Qed.

(** * Quotes *)
Lemma quoted_body_escaped : forall x rest, ~ begins a_quote rest -> quoted_body (escaped x ++ 39 :: rest) = Some (escaped x, rest).
Proof.
  induction x as [|c x IH]; intros rest H.
  - cbn. destruct rest as [|d rest]; [reflexivity|]. destruct (N.eqb_spec d 39) as [->|]; [exfalso; apply H; reflexivity|reflexivity].
  - cbn [escaped]. destruct (N.eqb_spec c 39) as [->|Hc].
    + cbn. fold quoted_body. rewrite (IH rest H). reflexivity.
    + cbn [app quoted_body]. replace (c =? 39) with false by (symmetry; apply N.eqb_neq; exact Hc). rewrite (IH rest H). reflexivity.
Qed.
Lemma quoted_body_some : forall k s t rest, (length s <= k)%nat -> quoted_body s = Some (t, rest) ->
  exists x, t = escaped x /\ s = t ++ 39 :: rest /\ ~ begins a_quote rest.
Proof.
  induction k as [|k IH]; intros s t rest L Q.
  { destruct s; [discriminate|simpl in L; lia]. }
  destruct s as [|c s]; [discriminate|]. cbn [quoted_body] in Q. destruct (N.eqb_spec c 39) as [->|Hc].
  - destruct s as [|d s].
    + inversion Q; subst. exists []; cbn; auto.
    + destruct (N.eqb_spec d 39) as [->|Hd].
      * destruct (quoted_body s) as [[t' r']|] eqn:Q'; [|discriminate]. inversion Q; subst.
        destruct (IH s t' rest ltac:(simpl in L; lia) Q') as (x & -> & -> & H). exists (39 :: x); cbn; auto.
      * inversion Q; subst. exists []; cbn; auto.
  - destruct (quoted_body s) as [[t' r']|] eqn:Q'; [|discriminate]. inversion Q; subst.
    destruct (IH s t' rest ltac:(simpl in L; lia) Q') as (x & -> & -> & H). exists (c :: x). cbn.
    replace (c =? 39) with false by (symmetry; apply N.eqb_neq; exact Hc). auto.
Qed.
Lemma coalesce_two : forall s, coalesce (39 :: 39 :: s) = coalesce (39 :: s). Proof. reflexivity. Qed.
Lemma coalesce_escaped : forall x, coalesce (escaped x) = squeeze false x /\ coalesce (39 :: escaped x) = 39 :: squeeze true x.
Proof.
  induction x as [|c x (IH1 & IH2)]; [split; reflexivity|]. cbn [escaped squeeze]. destruct (N.eqb_spec c 39) as [->|Hc].
  - rewrite !coalesce_two, IH2. auto.
  - assert (Hc' : c =? 39 = false) by (apply N.eqb_neq; exact Hc).
    assert (E : coalesce (c :: escaped x) = c :: coalesce (escaped x)).
    { destruct (escaped x) as [|d e]; [reflexivity|]. cbn [coalesce]. rewrite Hc'. reflexivity. }
    split; [rewrite E, IH1; reflexivity|].
    assert (E2 : coalesce (39 :: c :: escaped x) = 39 :: coalesce (c :: escaped x)).
    { change (coalesce (39 :: c :: escaped x)) with (if (39 =? 39) && (c =? 39) then coalesce (c :: escaped x) else 39 :: coalesce (c :: escaped x)).
      rewrite Hc'. reflexivity. }
    rewrite E2, E, IH1. reflexivity.
Qed.
Lemma escaped_nil : forall x, escaped x = [] <-> x = [].
Proof. intros [|c x]; split; try reflexivity; try discriminate. cbn. destruct (c =? 39); discriminate. Qed.

Local Opaque coalesce.
(** The number of quotes is even. *)
Fixpoint even_quotes (s : str) : bool := match s with [] => true | c :: s' => if c =? 39 then negb (even_quotes s') else even_quotes s' end.
Lemma even_app : forall a b, even_quotes (a ++ b) = Bool.eqb (even_quotes a) (even_quotes b).
Proof.
  induction a as [|c a IH]; intro b; cbn; [destruct (even_quotes b); reflexivity|].
  rewrite IH. destruct (c =? 39), (even_quotes a), (even_quotes b); reflexivity.
Qed.
Lemma even_escaped : forall x, even_quotes (escaped x) = true.
Proof.
  induction x as [|c x IH]; [reflexivity|]. cbn. destruct (c =? 39) eqn:E; cbn; [rewrite IH; reflexivity|rewrite E; exact IH].
Qed.
Lemma even_none : forall (p : N -> bool) d, (forall c, p c = true -> c =? 39 = false) -> forallb p d = true -> even_quotes d = true.
Proof.
  intros p d H; induction d as [|c d IH]; intro F; [reflexivity|]. cbn in *. apply andb_true_iff in F as (Fc & F). rewrite (H c Fc). auto.
Qed.
Lemma quoted_body_none : forall k s, (length s <= k)%nat -> quoted_body s = None -> even_quotes s = true.
Proof.
  induction k as [|k IH]; intros s L Q.
  { destruct s; [reflexivity|simpl in L; lia]. }
  destruct s as [|c s]; [reflexivity|]. cbn [quoted_body] in Q. cbn [even_quotes]. destruct (c =? 39) eqn:Ec.
  - destruct s as [|d s]; [discriminate|]. destruct (d =? 39) eqn:Ed; [|discriminate].
    destruct (quoted_body s) as [[t r]|] eqn:Q'; [discriminate|]. cbn. rewrite Ed, (IH s ltac:(simpl in L; lia) Q'). reflexivity.
  - destruct (quoted_body s) as [[t r]|] eqn:Q'; [discriminate|]. exact (IH s ltac:(simpl in L; lia) Q').
Qed.

(** * One token *)
Definition token_written (s : str) (t : token) (rest : str) : Prop :=
  (exists c n, s = repeat c n ++ rest /\ meaning c n t /\ ~ begins (eq c) rest) \/
  (exists x, s = x ++ rest /\ x <> [] /\ Forall stands_for_itself x /\ ~ begins stands_for_itself rest /\ t = Literal x) \/
  (exists x, s = S_ "'" ++ escaped x ++ S_ "'" ++ rest /\ x <> [] /\ ~ begins a_quote rest /\ t = Literal (squeeze false x)) \/
  (s = S_ "''" ++ rest /\ ~ begins a_quote rest /\ t = Literal (S_ "'")).
Lemma repeat_length_eq : forall (c : N) d, forallb (N.eqb c) d = true -> d = repeat c (length d).
Proof. induction d as [|x d IH]; intro F; [reflexivity|]. cbn in F. apply andb_true_iff in F as (E & F). apply N.eqb_eq in E; subst x. cbn. f_equal; auto. Qed.
Lemma one_token_complete : forall s t rest, token_written s t rest -> one_token s = Some (t, rest).
Proof.
  intros s t rest [(c & n & -> & M & B)|[(x & -> & Nx & F & B & ->)|[(x & -> & Nx & B & ->)|(-> & B & ->)]]].
  - pose proof M as (Hn & _). pose proof (meaning_alpha c n t M) as A. destruct n as [|n]; [lia|].
    assert (T : take_run (N.eqb c) (repeat c (S n) ++ rest) = (repeat c (S n), rest)).
    { apply take_run_spec. repeat split.
      - apply forallb_forall. intros x I. apply repeat_spec in I; subst. apply N.eqb_refl.
      - destruct rest as [|d rest]; [auto|]. cbn in *. rewrite N.eqb_eq. exact B. }
    unfold one_token. cbn [repeat app] in *. replace (c =? 39) with false.
    2:{ symmetry; apply N.eqb_neq; intros ->. discriminate A. }
    rewrite A, T. cbn [fst snd]. change (c :: repeat c n) with (repeat c (S n)). rewrite repeat_length.
    rewrite (proj2 (letter_token_meaning c (S n) t Hn) M). reflexivity.
  - destruct x as [|c x]; [contradiction|]. unfold one_token. cbn [app].
    pose proof (Forall_inv F) as Fc. apply plain_iff, plain_not_alpha in Fc as (A & Q). rewrite A, Q.
    replace (run1 plain (c :: x ++ rest)) with (Some (c :: x, rest)); [reflexivity|].
    symmetry. apply (parses_plain (c :: x ++ rest) (c :: x) rest). auto.
  - unfold one_token, quoted_text. cbn -[quoted_body escaped squeeze].
    change (escaped x ++ 39 :: rest) with (escaped x ++ 39 :: rest). rewrite (quoted_body_escaped x rest B).
    destruct (escaped x) as [|c e] eqn:E; [exfalso; apply Nx, escaped_nil, E|].
    rewrite <- E, (proj1 (coalesce_escaped x)). reflexivity.
  - unfold one_token, quoted_text, quote_pattern. cbn. destruct rest as [|d rest]; [reflexivity|].
    replace (d =? 39) with false; [reflexivity|]. symmetry; apply N.eqb_neq. exact B.
Qed.
(** Sound where the text goes on with an even number of quotes. *)
Lemma one_token_sound : forall s t rest, one_token s = Some (t, rest) -> even_quotes s = true ->
  token_written s t rest.
Proof.
  intros s t rest H Ev. destruct s as [|c s]; [discriminate|]. cbn [one_token] in H. destruct (c =? 39) eqn:Ec.
  - apply N.eqb_eq in Ec; subst c. destruct (quoted_text (39 :: s)) as [[t' r']|] eqn:Q.
    + inversion H; subst. unfold quoted_text in Q. cbn in Q. destruct (quoted_body s) as [[b r]|] eqn:B; [|discriminate].
      destruct b as [|b0 b]; [discriminate|]. inversion Q; subst.
      destruct (quoted_body_some (length s) s _ _ (le_n _) B) as (x & E & Es & Hb). right; right; left. exists x.
      assert (Ex : x <> []) by (intros ->; discriminate E). rewrite E in Es. repeat (match goal with |- _ /\ _ => split end); auto.
      * rewrite Es. reflexivity.
      * f_equal.
        rewrite E. apply coalesce_escaped.
    + unfold quote_pattern in H. destruct (tag [39; 39] (39 :: s)) as [[d r]|] eqn:T; [|discriminate].
      apply tag_spec in T as (E & ->). inversion H; subst. inversion E; subst. cbn [snd] in *. rename rest into r. right; right; right.
      split; [reflexivity|]. split; [|reflexivity]. unfold quoted_text in Q. cbn [N.eqb Pos.eqb] in Q.
      change (39 =? 39) with true in Q. cbv iota in Q.
      destruct (quoted_body (39 :: r)) as [[b r']|] eqn:B.
      * destruct b as [|b0 b]; [|discriminate]. destruct (quoted_body_some (length (39 :: r)) _ _ _ (le_n _) B) as (x & _ & Es & Hb).
        inversion Es; subst. exact Hb.
      * exfalso. apply (quoted_body_none (length (39 :: r)) _ (le_n _)) in B. cbn in Ev, B. rewrite B in Ev. discriminate.
  - destruct (ascii_alpha c) eqn:A.
    + left. destruct (take_run (N.eqb c) (c :: s)) as [d r] eqn:T. cbn [fst snd] in H.
      destruct (letter_token c (length d)) as [t'|] eqn:L; [|discriminate]. inversion H; subst.
      apply take_run_spec in T as (E & F & B). exists c, (length d). rewrite <- (repeat_length_eq c d F).
      assert (Hd : (1 <= length d)%nat).
      { destruct d as [|x d]; [|simpl; lia]. exfalso. simpl in E. subst rest. apply B. cbn. apply N.eqb_refl. }
      split; [exact E|]. split; [apply letter_token_meaning; assumption|].
      intro K. apply B. destruct rest as [|x rest]; [exact K|]. cbn in *. apply N.eqb_eq. exact K.
    + destruct (run1 plain (c :: s)) as [[d r]|] eqn:R; [|discriminate]. inversion H; subst. cbn [fst snd].
      apply parses_plain in R as (E & D & F & B). right; left. exists d; auto.
Qed.
Lemma token_written_even : forall s t rest, token_written s t rest -> even_quotes s = even_quotes rest.
Proof.
  intros s t rest [(c & n & -> & M & B)|[(x & -> & Nx & F & B & ->)|[(x & -> & Nx & B & ->)|(-> & B & ->)]]].
  - rewrite even_app. rewrite (even_none (N.eqb c)); [destruct (even_quotes rest); reflexivity| |].
    + intros d E. apply N.eqb_eq in E; subst d. apply meaning_alpha in M. apply N.eqb_neq; intros ->. discriminate M.
    + apply forallb_forall. intros y I. apply repeat_spec in I; subst. apply N.eqb_refl.
  - rewrite even_app, (even_none plain); [destruct (even_quotes rest); reflexivity| |].
    + intros c H. apply plain_not_alpha in H. tauto.
    + apply (forallb_Forall _ _ plain_iff); exact F.
  - rewrite !even_app, even_escaped. change (even_quotes (S_ "'")) with false. destruct (even_quotes rest); reflexivity.
  - rewrite even_app. change (even_quotes (S_ "''")) with true. destruct (even_quotes rest); reflexivity.
Qed.
Lemma one_token_even : forall s t rest, one_token s = Some (t, rest) -> even_quotes rest = even_quotes s.
Proof.
  intros s t rest H. destruct (even_quotes s) eqn:Ev.
  - symmetry. rewrite <- Ev. apply (token_written_even s t), one_token_sound; assumption.
  - destruct s as [|c s]; [discriminate|]. cbn [one_token] in H. destruct (c =? 39) eqn:Ec.
    + apply N.eqb_eq in Ec; subst c. destruct (quoted_text (39 :: s)) as [[t' r']|] eqn:Q.
      * inversion H; subst. unfold quoted_text in Q. cbn in Q. destruct (quoted_body s) as [[b r]|] eqn:B; [|discriminate].
        destruct b as [|b0 b]; [discriminate|]. inversion Q; subst.
        destruct (quoted_body_some (length s) s _ _ (le_n _) B) as (x & E & Es & Hb). rewrite E in Es. subst s.
        cbn in Ev. rewrite even_app, even_escaped in Ev. cbn in Ev. destruct (even_quotes rest); [discriminate|reflexivity].
      * unfold quote_pattern in H. destruct (tag [39; 39] (39 :: s)) as [[d r]|] eqn:T; [|discriminate].
        apply tag_spec in T as (E & ->). inversion H; subst. inversion E; subst. cbn in *. rename rest into r. destruct (even_quotes r); [discriminate|reflexivity].
    + destruct (ascii_alpha c) eqn:A.
      * destruct (take_run (N.eqb c) (c :: s)) as [d r] eqn:T. cbn [fst snd] in H.
        destruct (letter_token c (length d)) as [t'|] eqn:L; [|discriminate]. inversion H; subst.
        apply take_run_spec in T as (E & F & _). rewrite E, even_app, (even_none (N.eqb c) d) in Ev; auto.
        -- destruct (even_quotes rest); [discriminate|reflexivity].
        -- intros x Hx. apply N.eqb_eq in Hx; subst x. exact Ec.
      * destruct (run1 plain (c :: s)) as [[d r]|] eqn:R; [|discriminate]. inversion H; subst. cbn [fst snd].
        apply run1_spec in R as (E & D & F & B). rewrite E, even_app, (even_none plain d) in Ev; auto.
        -- destruct (even_quotes rest); [discriminate|reflexivity].
        -- intros x Hx. apply plain_not_alpha in Hx. tauto.
Qed.
Lemma tokens_of_even : forall f s ts, tokens_of f s = Some ts -> even_quotes s = true.
Proof.
  induction f as [|f IH]; intros s ts H; [discriminate|]. cbn in H. destruct (one_token s) as [[t rest]|] eqn:E; [|discriminate].
  apply one_token_even in E. destruct rest as [|c rest]; [rewrite <- E; reflexivity|].
  destruct (tokens_of f (c :: rest)) as [l|] eqn:T; [|discriminate]. rewrite <- E. exact (IH _ _ T).
Qed.
Lemma writes_inv : forall s ts, writes s ts -> s <> [] -> exists t ts' rest, ts = t :: ts' /\ token_written s t rest /\ writes rest ts'.
Proof.
  intros s ts W N; inversion W; subst; [contradiction|..]; eexists _, _, rest; (split; [reflexivity|split; [|eassumption]]).
  - left; eauto.
  - right; left; exists x; auto.
  - right; right; left; exists x; auto.
  - right; right; right; auto.
Qed.
Lemma writes_intro : forall s t ts rest, token_written s t rest -> writes rest ts -> writes s (t :: ts).
Proof.
  intros s t ts rest [(c & n & -> & M & B)|[(x & -> & Nx & F & B & ->)|[(x & -> & Nx & B & ->)|(-> & B & ->)]]] W.
  - apply writes_field; assumption.
  - apply writes_text; assumption.
  - apply writes_quoted; assumption.
  - apply writes_quote; assumption.
Qed.
Lemma token_written_shorter : forall s t rest, token_written s t rest -> (length rest < length s)%nat.
Proof.
  intros s t rest [(c & n & -> & (Hn & _) & B)|[(x & -> & Nx & F & B & ->)|[(x & -> & Nx & B & ->)|(-> & B & ->)]]];
    rewrite ?app_length, ?repeat_length; cbn [S_ length].
  - lia.
  - destruct x; [contradiction|simpl; lia].
  - lia.
  - lia.
Qed.
Lemma writes_nil : forall ts, writes [] ts -> ts = [].
Proof.
  intros ts W. remember (@nil BinNums.N) as s eqn:E. destruct W as [|c n t rest ts (Hn & _) _ _|x rest ts X _ _ _|x rest ts X _ _|rest ts _ _];
    [reflexivity|exfalso..].
  - destruct n; [lia|discriminate].
  - apply app_eq_nil in E as (E & _). exact (X E).
  - discriminate.
  - discriminate.
Qed.
Lemma tokens_of_spec : forall f s ts, (length s < f)%nat -> (tokens_of f s = Some ts <-> s <> [] /\ writes s ts).
Proof.
  induction f as [|f IH]; intros s ts L; [lia|]. split.
  - intro H. pose proof (tokens_of_even _ _ _ H) as Ev. cbn in H. destruct (one_token s) as [[t rest]|] eqn:E; [|discriminate].
    apply one_token_sound in E; [|exact Ev]. pose proof (token_written_shorter _ _ _ E) as Sh.
    split; [intros ->; simpl in Sh; lia|]. destruct rest as [|c rest].
    + inversion H; subst. exact (writes_intro s t [] [] E writes_end).
    + destruct (tokens_of f (c :: rest)) as [l|] eqn:T; [|discriminate]. inversion H; subst.
      apply IH in T as (_ & W); [|lia]. exact (writes_intro _ _ _ _ E W).
  - intros (N & W). destruct (writes_inv s ts W N) as (t & ts' & rest & -> & E & W').
    pose proof (token_written_shorter _ _ _ E) as Sh. cbn. rewrite (one_token_complete s t rest E).
    destruct rest as [|c rest]; [|rewrite (proj2 (IH (c :: rest) ts' ltac:(lia))); [reflexivity|split; [discriminate|exact W']]].
    rewrite (writes_nil ts' W'). reflexivity.
Qed.
Theorem parse_pattern_spec : forall f ts, parse_pattern f = Some ts <-> f <> [] /\ writes f ts.
Proof. intros f ts; unfold parse_pattern; apply tokens_of_spec; lia. Qed.
