(** Properties C01-C07, C37: document path expressions. *)
From Coq Require Import String List Arith NArith Lia Bool.
From Verif Require Import Base PathExp SpecPath PathExpProofs PathExpProofs2.
Import ListNotations.
Open Scope N_scope.

(** Sample Unicode tables used only by the examples. *)
Definition no_uni (_ : N) : bool := false.

(** ** C01 *)
(** A path is read back from its text exactly when its steps below the root are [plain_step]s. *)
Theorem C01_path_print_parse : forall ua un ts,
  parse_path_exp ua un (path_expr (from_tokens (TRoot :: ts))) = Ok (TRoot :: ts) <-> Forall plain_step ts.
Proof. exact parse_print_iff. Qed.

Example C01_example :
  Forall plain_step [TField (S_ "a b"); TIndex 12; TStar; TField (S_ "x"); TStarIndex] /\
  path_expr (from_tokens [TRoot; TField (S_ "a b"); TIndex 12; TStar; TField (S_ "x"); TStarIndex])
    = S_ "$['a b'][12].*.x[*]".
Proof.
  split; [|vm_compute; reflexivity].
  repeat constructor; try discriminate; cbn; try (intuition discriminate); vm_compute; reflexivity.
Qed.

(** The others may be read without error as different steps. *)
Theorem C01_why_no_backslash :
  exists f, forall ua un, exists ts,
    parse_path_exp ua un (path_expr (from_tokens [TRoot; TField f])) = Ok ts /\
    ts <> [TRoot; TField f].
Proof.
  exists (S_ "a\b"). intros ua un. exists [TRoot; TField (S_ "a\\b")].
  split; [vm_compute; reflexivity|discriminate].
Qed.

(** ** C02 *)
(** [s] holds an opening bracket followed by a run of numeric characters that is not a u64. *)
Definition has_bad_index (un : N -> bool) (s : str) : Prop :=
  exists pre ds post, s = pre ++ S_ "[" ++ ds ++ post /\ ds <> [] /\
    Forall (fun c => is_numeric un c = true) ds /\ parse_usize ds = None.

Theorem C02_no_panic_without_long_index : forall ua un s,
  ~ has_bad_index un s -> parse_path_exp ua un s <> Panic.
Proof.
  intros ua un s Hb H. apply parse_panic in H. destruct H as (pre & ds & post & E & A & B & C).
  apply Hb. exists pre, ds, post. rewrite forallb_forall in B.
  split; [exact E|]. split; [exact A|]. split; [apply Forall_forall; exact B|exact C].
Qed.

(** The loop bound of the model never shows: results are the parser's own. *)
Theorem C02_parse_total : forall ua un s, parse_path_exp ua un s <> Err OutOfFuel.
Proof. exact parse_not_fuel. Qed.

(** The parser aborts exactly when a complete expression is followed by an opening bracket and
    a run of numeric characters that is not a u64, up to the closing bracket or the end. *)
Theorem C02_panics_exactly_when : forall ua un s,
  parse_path_exp ua un s = Panic <->
  exists pre ts ds post, s = pre ++ S_ "[" ++ ds ++ post /\
    pre <> [] /\ parse_path_exp ua un pre = Ok ts /\
    ds <> [] /\ Forall (fun c => is_numeric un c = true) ds /\ parse_usize ds = None /\
    (post = [] \/ exists q, post = S_ "]" ++ q).
Proof.
  intros ua un s. rewrite parse_panic_iff. split.
  - intros (pre & ts & ds & post & E & NE & P & B1 & B2 & B3 & B4). exists pre, ts, ds, post.
    rewrite forallb_forall in B2. rewrite Forall_forall. auto 10.
  - intros (pre & ts & ds & post & E & NE & P & B1 & B2 & B3 & B4). exists pre, ts, ds, post.
    rewrite Forall_forall in B2. unfold bad_run. rewrite forallb_forall. auto 10.
Qed.
Example C02_panic_example : forall ua un, parse_path_exp ua un (S_ "$[99999999999999999999]") = Panic.
Proof. intros; vm_compute; reflexivity. Qed.

(** A usable sufficient condition: ASCII expressions of at most 20 characters. *)
Lemma dec_value_bound : forall ds acc, all_digits ds = true ->
  dec_value ds acc < (acc + 1) * 10 ^ N.of_nat (length ds).
Proof.
  induction ds as [|c ds IH]; intros acc H.
  - cbn [dec_value length]. change (10 ^ N.of_nat 0) with 1. lia.
  - unfold all_digits in H. cbn [forallb] in H. apply andb_true_iff in H. destruct H as [Hc H].
    apply is_digit_range in Hc. cbn [dec_value length]. rewrite Nat2N.inj_succ, N.pow_succ_r'.
    eapply N.lt_le_trans; [apply IH, H|].
    rewrite (N.mul_comm 10), N.mul_assoc, (N.mul_comm ((acc + 1) * _) 10), N.mul_assoc.
    apply N.mul_le_mono_r. lia.
Qed.

Theorem C02_short_ascii_expressions_never_panic : forall ua un s,
  Forall (fun c => c < 128) s -> (length s <= 20)%nat -> parse_path_exp ua un s <> Panic.
Proof.
  intros ua un s Ha Hl. apply C02_no_panic_without_long_index.
  intros (pre & ds & post & E & Hne & Hd & Hp). subst s.
  rewrite !app_length in Hl. cbn [length S_] in Hl.
  apply Forall_app in Ha. destruct Ha as [_ Ha]. apply Forall_app in Ha. destruct Ha as [_ Ha].
  apply Forall_app in Ha. destruct Ha as [Ha _].
  assert (D : all_digits ds = true).
  { apply forallb_forall. intros c Hc. rewrite Forall_forall in Ha, Hd. specialize (Ha _ Hc). specialize (Hd _ Hc).
    unfold is_numeric in Hd. apply N.ltb_lt in Ha. rewrite Ha in Hd. exact Hd. }
  rewrite parse_usize_digits in Hp by assumption.
  destruct (N.ltb_spec (dec_value ds 0) two64) as [L|L]; [discriminate|].
  pose proof (dec_value_bound ds 0 D) as B.
  assert (10 ^ N.of_nat (length ds) <= 10 ^ 19) as P by (apply N.pow_le_mono_r; lia).
  assert (10 ^ 19 < two64) as Q by (vm_compute; reflexivity).
  revert L B P Q. generalize (10 ^ N.of_nat (length ds)), (10 ^ 19), two64. intros. lia.
Qed.

Example C02_example :
  parse_path_exp no_uni no_uni (S_ "$.a[10]") = Ok [TRoot; TField (S_ "a"); TIndex 10].
Proof. vm_compute. reflexivity. Qed.

(** ** C03 *)
Theorem C03_accepted_starts_with_one_root : forall ua un s ts, s <> [] ->
  parse_path_exp ua un s = Ok ts ->
  exists us, ts = TRoot :: us /\ ~ In TRoot us.
Proof.
  intros ua un s ts Hne H. destruct (parse_inv ua un s ts Hne H) as (us & E & F).
  exists us. split; [exact E|]. intro Hin. rewrite Forall_forall in F. exact (F _ Hin).
Qed.

(** What was accepted is read back from its canonical text exactly when no name in it has a backslash. *)
Theorem C03_accepted_canonical_form : forall ua un s ts, s <> [] ->
  parse_path_exp ua un s = Ok ts ->
  (parse_path_exp ua un (path_expr (from_tokens ts)) = Ok ts <-> forall f, In (TField f) ts -> ~ In 92 f (* no backslash *)).
Proof.
  intros ua un s ts NE H. destruct (parse_inv ua un s ts NE H) as (us & -> & F). cbn [from_tokens path_expr]. rewrite parse_print_iff. split.
  - intros P f [I|I]; [discriminate|]. rewrite Forall_forall in P. exact (proj2 (proj2 (P _ I))).
  - intros P. rewrite Forall_forall in *. intros t I. specialize (F t I). destruct t as [|f|i| |]; cbn in *; auto.
    destruct F as (A & B & _). split; [exact A|]. split; [exact B|]. apply P. right. exact I.
Qed.
(** In particular if the expression has none. *)
Theorem C03_no_backslash : forall ua un s ts, s <> [] -> ~ In 92 s ->
  parse_path_exp ua un s = Ok ts -> parse_path_exp ua un (path_expr (from_tokens ts)) = Ok ts.
Proof. exact reparse. Qed.
Theorem C03_why_no_backslash :
  exists s, forall ua un, exists ts,
    parse_path_exp ua un s = Ok ts /\
    parse_path_exp ua un (path_expr (from_tokens ts)) <> Ok ts.
Proof.
  exists (S_ "$['a\b']"). intros ua un. exists [TRoot; TField (S_ "a\b")].
  split; [vm_compute; reflexivity|]. vm_compute. discriminate.
Qed.

Example C03_example :
  parse_path_exp no_uni no_uni (S_ "body['x y'].*[3]") =
  Ok [TRoot; TField (S_ "body"); TField (S_ "x y"); TStar; TIndex 3].
Proof. vm_compute. reflexivity. Qed.

(** ** C04 *)
Lemma accepts_forall : forall ts path,
  accepts ts path <-> (length ts <= length path)%nat /\
    Forall (fun tf => matches_token (snd tf) (fst tf) <> 0) (combine ts path).
Proof.
  assert (St : forall t f, step_accepts t f <-> matches_token f t <> 0).
  { intros t f. destruct t; cbn [step_accepts matches_token].
    - destruct (str_eqb_spec f (S_ "$")); split; congruence.
    - destruct (str_eqb_spec f name); split; congruence.
    - destruct (parse_usize f) as [j|]; [|split; congruence].
      destruct (N.eqb_spec i j); split; congruence.
    - split; [discriminate|auto].
    - destruct (str_eqb_spec f (S_ "[*]")); [split; [discriminate|auto]|].
      destruct (parse_usize f) as [j|]; split; try discriminate; eauto; try congruence.
      intros [H|[j H]]; congruence. }
  induction ts as [|t ts IH]; intros path.
  - split; [intros _; split; [simpl; lia|constructor]|intros _; constructor].
  - split.
    + intro H. inversion H as [|? ? f path' Hs Ha]; subst. apply IH in Ha. destruct Ha as [L F].
      split; [simpl; lia|]. cbn [combine]. constructor; [apply St, Hs|exact F].
    + intros [L F]. destruct path as [|f path]; [simpl in L; lia|]. cbn [combine] in F.
      inversion F as [|? ? F1 F2]; subst. constructor; [apply St, F1|].
      apply IH. split; [simpl in L; lia|exact F2].
Qed.

Lemma exact_steps_count : forall ts, exact_steps ts = exact_count ts.
Proof.
  unfold exact_count. induction ts as [|t ts IH]; [reflexivity|].
  destruct t; cbn; rewrite IH; reflexivity.
Qed.

Lemma matches_prefix_short : forall p path,
  (exact_steps (path_tokens p) < 64)%nat ->
  (matches_path p path = true <-> accepts (path_tokens p) path).
Proof.
  intros p path E. rewrite accepts_forall. unfold matches_path, path_weight.
  rewrite exact_steps_count in E.
  destruct (N.leb_spec (N.of_nat (length (path_tokens p))) (N.of_nat (length path))) as [L|L].
  - cbn [fst]. assert (L' : (length (path_tokens p) <= length path)%nat) by lia.
    destruct (Forall_dec_tokens (combine (path_tokens p) path)) as [F|F].
    + rewrite weight_pos by assumption. split; [auto|]. intros _. apply N.ltb_lt.
      assert (2 ^ N.of_nat (exact_count (path_tokens p)) <> 0) by (apply N.pow_nonzero; discriminate).
      revert H. generalize (2 ^ N.of_nat (exact_count (path_tokens p))). lia.
    + rewrite weight_zero by assumption. split; [discriminate|]. intros [_ H]; contradiction.
  - cbn [fst]. split; [discriminate|]. intros [H _]. lia.
Qed.

Lemma weight_value_short : forall p path,
  (exact_steps (path_tokens p) < 64)%nat -> accepts (path_tokens p) path ->
  path_weight p path = (2 ^ N.of_nat (exact_steps (path_tokens p)), N.of_nat (length (path_tokens p))).
Proof.
  intros p path E A. apply accepts_forall in A. destruct A as [L F].
  rewrite exact_steps_count in *. unfold path_weight.
  assert (L' : N.of_nat (length (path_tokens p)) <=? N.of_nat (length path) = true) by (apply N.leb_le; lia).
  rewrite L'. f_equal. apply weight_pos; assumption.
Qed.

Theorem C04_weight_zero : forall p path, ~ accepts (path_tokens p) path -> fst (path_weight p path) = 0.
Proof.
  intros p path A. rewrite accepts_forall in A. unfold path_weight.
  destruct (N.leb_spec (N.of_nat (length (path_tokens p))) (N.of_nat (length path))) as [L|L]; cbn [fst]; [|reflexivity].
  apply weight_zero; [lia|]. intro F. apply A. split; [lia|exact F].
Qed.

Lemma long_expressions_never_match : forall p path,
  (64 <= exact_steps (path_tokens p))%nat -> fst (path_weight p path) = 0.
Proof.
  intros p path E. rewrite exact_steps_count in E. unfold path_weight.
  destruct (N.leb_spec (N.of_nat (length (path_tokens p))) (N.of_nat (length path))) as [L|L]; cbn [fst]; [|reflexivity].
  rewrite weight_wraps by (lia || assumption). reflexivity.
Qed.
(** An expression matches exactly the locations it accepts, as long as it has fewer than 64
    exact steps; with 64 or more the product wraps to 0 and it matches nothing. *)
Theorem C04_matches_exactly_when : forall p path,
  matches_path p path = true <-> accepts (path_tokens p) path /\ (exact_steps (path_tokens p) < 64)%nat.
Proof.
  intros p path. destruct (Nat.lt_ge_cases (exact_steps (path_tokens p)) 64) as [L|L].
  - rewrite matches_prefix_short by exact L. tauto.
  - unfold matches_path. rewrite long_expressions_never_match by exact L. split; [discriminate|]. intros [_ H]. lia.
Qed.
(** The weight of what is accepted: two to the number of exact steps, in 64 bits. *)
Theorem C04_weight_value : forall p path, accepts (path_tokens p) path ->
  path_weight p path = (2 ^ N.of_nat (exact_steps (path_tokens p)) mod 2 ^ 64, N.of_nat (length (path_tokens p))).
Proof.
  intros p path A. destruct (Nat.lt_ge_cases (exact_steps (path_tokens p)) 64) as [L|L].
  - rewrite weight_value_short by assumption. f_equal. symmetry. apply N.mod_small. apply N.pow_lt_mono_r; lia.
  - rewrite (surjective_pairing (path_weight p path)), long_expressions_never_match by exact L. f_equal.
    + replace (N.of_nat (exact_steps (path_tokens p))) with (64 + (N.of_nat (exact_steps (path_tokens p)) - 64)) by lia.
      rewrite N.pow_add_r, N.mul_comm, N.mod_mul by discriminate. reflexivity.
    + unfold path_weight. destruct (N.of_nat (length (path_tokens p)) <=? N.of_nat (length path)); reflexivity.
Qed.
Theorem C04_why_fewer_than_64 :
  exists p path, accepts (path_tokens p) path /\ matches_path p path = false.
Proof.
  exists (from_tokens (TRoot :: repeat (TField (S_ "a")) 63)), (S_ "$" :: repeat (S_ "a") 63).
  split; [|vm_compute; reflexivity].
  constructor; [reflexivity|]. cbn [from_tokens path_tokens].
  generalize 63%nat. induction n; cbn [repeat]; constructor; [reflexivity|exact IHn].
Qed.

Example C04_example :
  accepts [TRoot; TField (S_ "a"); TStarIndex] [S_ "$"; S_ "a"; S_ "7"; S_ "b"] /\
  path_weight (from_tokens [TRoot; TField (S_ "a"); TStarIndex]) [S_ "$"; S_ "a"; S_ "7"; S_ "b"] = (4, 3).
Proof.
  split; [|vm_compute; reflexivity].
  constructor; [reflexivity|]. constructor; [reflexivity|].
  constructor; [|constructor]. right. exists 7. vm_compute. reflexivity.
Qed.

(** ** C05 *)
Theorem C05_path_equality_is_step_equality : forall ts us,
  path_eqb (from_tokens ts) (from_tokens us) = true <-> ts = us.
Proof.
  intros ts us. unfold path_eqb, from_tokens. cbn [path_expr]. rewrite str_eqb_eq.
  split; [apply build_expr_inj|congruence].
Qed.

(** Paths read from text are equal exactly when the texts are, ... *)
Theorem C05_parsed_paths : forall ua un s1 s2 p1 p2,
  path_new ua un s1 = Ok p1 -> path_new ua un s2 = Ok p2 -> (path_eqb p1 p2 = true <-> s1 = s2).
Proof.
  intros ua un s1 s2 p1 p2 H1 H2. unfold path_new in *.
  destruct (parse_path_exp ua un s1); try discriminate. destruct (parse_path_exp ua un s2); try discriminate.
  injection H1 as <-. injection H2 as <-. unfold path_eqb. cbn [path_expr]. apply str_eqb_eq.
Qed.
(** ... so that different texts with the same steps are different paths. *)
Theorem C05_why_built_from_steps :
  exists s1 s2 : str, forall ua un, exists p1 p2,
    path_new ua un s1 = Ok p1 /\ path_new ua un s2 = Ok p2 /\
    path_tokens p1 = path_tokens p2 /\ path_eqb p1 p2 = false.
Proof.
  exists (S_ "foo"), (S_ "$.foo"). intros ua un.
  exists (mkPath [TRoot; TField (S_ "foo")] (S_ "foo")), (mkPath [TRoot; TField (S_ "foo")] (S_ "$.foo")).
  vm_compute. auto.
Qed.

Example C05_example :
  path_eqb (from_tokens [TRoot; TField (S_ "1")]) (from_tokens [TRoot; TIndex 1]) = false /\
  path_eqb (from_tokens [TRoot; TField (S_ "*")]) (from_tokens [TRoot; TStar]) = false.
Proof. vm_compute. auto. Qed.

(** ** C06 *)
Definition escape_ref (v : str) : str := replace_char 47 (S_ "~1") (replace_char 126 (S_ "~0") v).

Lemma escape_ref_cons : forall c v, escape_ref (c :: v) =
  (if c =? 126 then S_ "~0" else if c =? 47 then S_ "~1" else [c]) ++ escape_ref v.
Proof.
  intros c v. unfold escape_ref. cbn [replace_char].
  destruct (N.eqb_spec c 126) as [->|H].
  - reflexivity.
  - cbn [replace_char]. destruct (c =? 47); reflexivity.
Qed.

Lemma escape_ref_unescape : forall v, rfc_unescape (escape_ref v) = Some v.
Proof.
  induction v as [|c v IH]; [reflexivity|]. rewrite escape_ref_cons.
  destruct (N.eqb_spec c 126) as [->|H].
  - cbn. rewrite IH. reflexivity.
  - destruct (N.eqb_spec c 47) as [->|H2].
    + cbn. rewrite IH. reflexivity.
    + cbn [app rfc_unescape]. apply N.eqb_neq in H. rewrite H, IH. reflexivity.
Qed.

Lemma escape_ref_no_slash : forall v, ~ In 47 (escape_ref v).
Proof.
  induction v as [|c v IH]; [intros []|]. rewrite escape_ref_cons. intro H.
  apply in_app_or in H. destruct H as [H|H]; [|exact (IH H)].
  destruct (N.eqb_spec c 126) as [->|Hc]; [cbn in H; intuition discriminate|].
  destruct (N.eqb_spec c 47) as [->|Hd]; cbn in H; [intuition discriminate|]. destruct H as [H|[]]; congruence.
Qed.

Lemma escape_ref_digits : forall v, all_digits v = true -> escape_ref v = v.
Proof.
  induction v as [|c v IH]; intro H; [reflexivity|]. unfold all_digits in H. cbn [forallb] in H.
  apply andb_true_iff in H. destruct H as [Hc Hv]. apply is_digit_range in Hc.
  rewrite escape_ref_cons. destruct (N.eqb_spec c 126); [lia|]. destruct (N.eqb_spec c 47); [lia|].
  cbn [app]. f_equal. apply IH, Hv.
Qed.

Lemma split_slash_app : forall w rest, ~ In 47 w ->
  split_slash (w ++ 47 :: rest) = w :: split_slash rest.
Proof.
  induction w as [|c w IH]; intros rest H; cbn [app split_slash].
  - reflexivity.
  - destruct (N.eqb_spec c 47) as [->|_]; [exfalso; apply H; left; reflexivity|].
    rewrite IH by (intro; apply H; right; assumption). reflexivity.
Qed.

Lemma split_slash_word : forall w, ~ In 47 w -> split_slash w = [w].
Proof.
  induction w as [|c w IH]; intro H; cbn [split_slash]; [reflexivity|].
  destruct (N.eqb_spec c 47) as [->|_]; [exfalso; apply H; left; reflexivity|].
  rewrite IH by (intro; apply H; right; assumption). reflexivity.
Qed.

Fixpoint pointer_text (names : list str) : str :=
  match names with [] => [] | n :: ns => 47 :: escape_ref n ++ pointer_text ns end.

Lemma pointer_of_text : forall ts s, pointer_of ts = Some s -> s = pointer_text (step_names ts).
Proof.
  induction ts as [|t ts IH]; intros s H; cbn [pointer_of] in H.
  - inversion H; reflexivity.
  - destruct t; try discriminate; cbn [step_names].
    + apply IH, H.
    + destruct (pointer_of ts); [|discriminate]. inversion H; subst. cbn [pointer_text].
      rewrite (IH _ eq_refl). reflexivity.
    + destruct (pointer_of ts); [|discriminate]. inversion H; subst. cbn [pointer_text].
      rewrite (IH _ eq_refl), escape_ref_digits by apply show_N_digits. reflexivity.
Qed.

Lemma pointer_text_tokens : forall names, rfc6901_tokens (pointer_text names) = Some names.
Proof.
  intros [|n ns]; [reflexivity|]. cbn [pointer_text rfc6901_tokens]. change (47 =? 47) with true. cbv iota.
  revert n. induction ns as [|m ns IH]; intro n.
  - cbn [pointer_text]. rewrite app_nil_r, split_slash_word by apply escape_ref_no_slash.
    cbn [map_option]. rewrite escape_ref_unescape. reflexivity.
  - cbn [pointer_text]. rewrite split_slash_app by apply escape_ref_no_slash.
    cbn [map_option]. rewrite escape_ref_unescape, IH. reflexivity.
Qed.

Theorem C06_json_pointer_denotes_path : forall p s,
  as_json_pointer p = Some s -> rfc6901_tokens s = Some (step_names (path_tokens p)).
Proof. intros p s H. apply pointer_of_text in H. subst. apply pointer_text_tokens. Qed.

Theorem C06_json_pointer_rejects_exactly_wildcards : forall p,
  as_json_pointer p = None <-> In TStar (path_tokens p) \/ In TStarIndex (path_tokens p).
Proof. intro p. apply pointer_none. Qed.

Example C06_example :
  as_json_pointer (from_tokens [TRoot; TField (S_ "a/b~c"); TIndex 3]) = Some (S_ "/a~1b~0c/3").
Proof. vm_compute. reflexivity. Qed.

(** ** C07 *)
Lemma rev_last : forall (l : list token), match rev l with [] => None | t :: _ => Some t end =
  match l with [] => None | _ => Some (last l TRoot) end.
Proof.
  intro l. destruct l as [|a l] using rev_ind; [reflexivity|].
  rewrite rev_app_distr. cbn [rev app]. rewrite last_last. destruct l; reflexivity.
Qed.

Lemma run_op_ok : forall o p, canonical p ->
  canonical (run_op p o) /\ path_tokens (run_op p o) = op_steps (path_tokens p) o.
Proof.
  intros o p H. destruct o; cbn [run_op op_steps];
    try (split; [apply push_canonical, H|reflexivity]).
  - split; [apply push_path_canonical, H|]. rewrite push_path_tokens. reflexivity.
  - unfold join, part_token. destruct (str_eqb s (S_ "*")); [split; [apply push_canonical, H|reflexivity]|].
    destruct (str_eqb s (S_ "[*]")); [split; [apply push_canonical, H|reflexivity]|].
    destruct (parse_usize s); split; try apply push_canonical, H; reflexivity.
  - unfold join_index, path_last. rewrite rev_last. destruct (path_tokens p) as [|t ts] eqn:E.
    + split; [apply push_canonical, H|]. cbn. rewrite E. reflexivity.
    + rewrite <- E. destruct (last (path_tokens p) TRoot);
        (split; [first [reflexivity | apply push_canonical, H]|reflexivity]).
  - unfold join_field, path_last. rewrite rev_last. destruct (path_tokens p) as [|t ts] eqn:E.
    + split; [apply push_canonical, H|]. cbn. rewrite E. reflexivity.
    + rewrite <- E. destruct (last (path_tokens p) TRoot);
        (split; [first [reflexivity | apply push_canonical, H]|reflexivity]).
  - unfold parent. destruct (path_tokens p) as [|a [|b l]] eqn:E; cbn [length Nat.leb];
      (split; [first [exact H|reflexivity]|first [exact E|reflexivity]]).
  - unfold path_drop. destruct (firstn (length (path_tokens p) - n) (path_tokens p)); split; reflexivity.
Qed.

Theorem C07_string_form_agrees_with_steps : forall ops,
  let p := fold_left run_op ops path_root in
  path_tokens p = fold_left op_steps ops [TRoot] /\
  p = from_tokens (fold_left op_steps ops [TRoot]).
Proof.
  intro ops.
  assert (G : forall p, canonical p ->
     canonical (fold_left run_op ops p) /\
     path_tokens (fold_left run_op ops p) = fold_left op_steps ops (path_tokens p)).
  { induction ops as [|o ops IH]; intros p H; [split; [exact H|reflexivity]|].
    cbn [fold_left]. destruct (run_op_ok o p H) as [H1 H2]. rewrite <- H2. apply IH, H1. }
  destruct (G path_root eq_refl) as [G1 G2].
  cbv zeta. split; [exact G2|].
  destruct (fold_left run_op ops path_root) as [ts e] eqn:E. cbn [path_tokens] in G2.
  unfold canonical in G1. cbn in G1. subst. unfold from_tokens. reflexivity.
Qed.

Example C07_example :
  path_expr (fold_left run_op [OpJoin (S_ "a"); OpPushStar; OpJoinIndex 3; OpPushField (S_ "x y"); OpJoin (S_ "7"); OpParent] path_root)
  = S_ "$.a[3]['x y']".
Proof. vm_compute. reflexivity. Qed.

(** Looking at a path agrees with its steps. *)
Definition name_step (t : token) : Prop := exists n, t = TField n.
Theorem C07_inspection : forall p,
  (is_root p = true <-> path_tokens p = [TRoot]) /\
  (is_wildcard p = true <-> exists ts, path_tokens p = ts ++ [TStar]) /\
  (forall n, first_field p = Some n <->
     exists a b, path_tokens p = a ++ TField n :: b /\ forall t, In t a -> ~ name_step t) /\
  (forall n, last_field p = Some n <->
     exists a b, path_tokens p = a ++ TField n :: b /\ forall t, In t b -> ~ name_step t).
Proof.
  intro p. unfold is_root, is_wildcard, path_last, first_field, last_field. generalize (path_tokens p). intro ts.
  assert (F : forall l n, first_field_of l = Some n <->
     exists a b, l = a ++ TField n :: b /\ forall t, In t a -> ~ name_step t).
  { induction l as [|t l IH]; intro n; cbn [first_field_of].
    - split; [discriminate|]. intros (a & b & E & _). destruct a; discriminate.
    - destruct t; try (rewrite IH; split;
        [intros (a & b & -> & H); eexists (_ :: a), b; split; [reflexivity|]; intros t [<-|I]; [intros [m E]; discriminate | apply H, I]
        |intros (a & b & E & H); destruct a as [|t a]; [discriminate|]; injection E as <- ->; exists a, b; split; [reflexivity|];
         intros t I; apply H; right; exact I]).
      split.
      + intro E. injection E as ->. exists [], l. split; [reflexivity|]. intros t [].
      + intros (a & b & E & H). destruct a as [|t a]; [injection E as -> _; reflexivity|]. injection E as <- _.
        exfalso. apply (H (TField name) (or_introl eq_refl)). eexists; reflexivity. }
  split; [destruct ts as [|[] [|]]; split; congruence|]. split.
  { destruct ts as [|t l] using rev_ind; [split; [discriminate | intros [x E]; destruct x; discriminate]|].
    rewrite rev_app_distr. cbn. destruct t; split; try discriminate; try (intros [x E]; apply app_inj_tail in E as [_ E]; discriminate);
    try reflexivity. intros _. eexists. reflexivity. }
  split; [apply F|]. intro n. rewrite F. split.
  - intros (a & b & E & H). exists (rev b), (rev a). split.
    + rewrite <- (rev_involutive ts), E, rev_app_distr. cbn [rev]. rewrite <- app_assoc. reflexivity.
    + intros t I. apply H, in_rev, I.
  - intros (a & b & -> & H). exists (rev b), (rev a). split.
    + rewrite rev_app_distr. cbn [rev]. rewrite <- app_assoc. reflexivity.
    + intros t I. apply H, in_rev, I.
Qed.

(** ** C37: joining different object keys *)
Definition plain_key (k : str) : Prop :=
  k <> S_ "*" /\ k <> S_ "[*]" /\ parse_usize k = None.

Lemma join_token : forall p k, join p k = push p (part_token k).
Proof.
  intros p k. unfold join, part_token. destruct (str_eqb k (S_ "*")); [reflexivity|]. destruct (str_eqb k (S_ "[*]")); [reflexivity|].
  destruct (parse_usize k); reflexivity.
Qed.
(** Two keys below the same path give equal paths exactly when they are equal or are both
    decimal forms of one number. *)
Theorem C37_join_distinguishes_keys : forall ts k1 k2,
  path_eqb (join (from_tokens ts) k1) (join (from_tokens ts) k2) = true <->
  k1 = k2 \/ exists i, parse_usize k1 = Some i /\ parse_usize k2 = Some i.
Proof.
  intros ts k1 k2. rewrite !join_token. unfold path_eqb, push. cbn [path_expr from_tokens]. rewrite str_eqb_eq.
  assert (Q : build_expr ts ++ token_expr (part_token k1) = build_expr ts ++ token_expr (part_token k2) <-> part_token k1 = part_token k2).
  { split; [|congruence]. intro H. apply app_inv_head in H.
    assert (E : build_expr [part_token k1] = build_expr [part_token k2]) by (cbn [build_expr]; rewrite !app_nil_r; exact H).
    apply build_expr_inj in E. congruence. }
  rewrite Q. clear Q. unfold part_token.
  destruct (str_eqb_spec k1 (S_ "*")) as [->|A1].
  { split.
    - destruct (str_eqb_spec k2 (S_ "*")) as [->|A2]; [auto|]. destruct (str_eqb k2 (S_ "[*]")); [discriminate|]. destruct (parse_usize k2); discriminate.
    - intros [<-|[i [X _]]]; [reflexivity|vm_compute in X; discriminate]. }
  destruct (str_eqb_spec k1 (S_ "[*]")) as [->|B1].
  { split.
    - destruct (str_eqb_spec k2 (S_ "*")) as [->|A2]; [discriminate|]. destruct (str_eqb_spec k2 (S_ "[*]")) as [->|B2]; [auto|]. destruct (parse_usize k2); discriminate.
    - intros [<-|[i [X _]]]; [reflexivity|vm_compute in X; discriminate]. }
  destruct (str_eqb_spec k2 (S_ "*")) as [->|A2].
  { split; [destruct (parse_usize k1); discriminate|]. intros [->|[i [_ X]]]; [contradiction|vm_compute in X; discriminate]. }
  destruct (str_eqb_spec k2 (S_ "[*]")) as [->|B2].
  { split; [destruct (parse_usize k1); discriminate|]. intros [->|[i [_ X]]]; [contradiction|vm_compute in X; discriminate]. }
  destruct (parse_usize k1) as [i|] eqn:P1, (parse_usize k2) as [j|] eqn:P2.
  - split; [intro H; injection H as ->; right; eauto|]. intros [->|[l [X Y]]]; congruence.
  - split; [discriminate|]. intros [->|[l [X Y]]]; congruence.
  - split; [discriminate|]. intros [->|[l [X Y]]]; congruence.
  - split; [intro H; injection H as ->; auto|]. intros [->|[l [X Y]]]; congruence.
Qed.
(** A key is taken as the name of a field exactly when it is not a wildcard or a number. *)
Theorem C37_key_is_a_field : forall ts k, path_tokens (join (from_tokens ts) k) = ts ++ [TField k] <-> plain_key k.
Proof.
  intros ts k. rewrite join_token. unfold push, plain_key, part_token. cbn [path_tokens from_tokens].
  split.
  - intro H. apply app_inv_head in H. destruct (str_eqb_spec k (S_ "*")); [discriminate|]. destruct (str_eqb_spec k (S_ "[*]")); [discriminate|].
    destruct (parse_usize k); [discriminate|]. auto.
  - intros (A & B & C). apply str_eqb_neq in A, B. rewrite A, B, C. reflexivity.
Qed.
Theorem C37_why_not_numbers : exists k1 k2 : str, k1 <> k2 /\ forall p, join p k1 = join p k2.
Proof. exists (S_ "5"), (S_ "05"). split; [discriminate|]. intro p. reflexivity. Qed.

Example C37_example : plain_key (S_ "name") /\ plain_key (S_ "x y").
Proof. split; (split; [discriminate|split; [discriminate|vm_compute; reflexivity]]). Qed.

