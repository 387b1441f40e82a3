(** C73: the values generators produce, as texts, status codes and in JSON bodies. *)
From Coq Require Import Ascii String List Arith NArith ZArith Lia Bool Floats.SpecFloat.
From Coq Require Import ZifyBool ZifyN ZifyNat.
From Verif Require Import Base PathExp Json Text MatchingRules Matchers JsonCompare Expr Generators GenApply GenValues
  SpecGenApply PropGenApply PropExpr2 SpecGenValues PropGenValues.
Import ListNotations.
Open Scope N_scope.
Local Opaque show_N.
Ltac Zify.zify_post_hook ::= Z.div_mod_to_equations.

Lemma gen_range_any : forall lo hi z, (exists r, gen_range r lo hi = Ok z) <-> (lo <= z < hi)%Z.
Proof.
  intros lo hi z. unfold gen_range. split.
  - intros [r H]. destruct (lo <? hi)%Z eqn:E; [|discriminate]. injection H as <-. pose proof (Z.mod_pos_bound (Z.of_N (draw r 0)) (hi - lo) ltac:(lia)). lia.
  - intro H. exists (fun _ => Z.to_N (z - lo)). destruct (lo <? hi)%Z eqn:E; [|lia]. f_equal. unfold draw.
    rewrite Z2N.id by lia. rewrite Z.mod_small by lia. lia.
Qed.
Lemma gen_range_panics : forall r lo hi, gen_range r lo hi = Panic <-> (hi <= lo)%Z.
Proof. intros. unfold gen_range. destruct (lo <? hi)%Z eqn:E; split; try discriminate; try lia. reflexivity. Qed.
Lemma gen_range_noerr : forall r lo hi e, gen_range r lo hi <> Err e.
Proof. intros. unfold gen_range. destruct (lo <? hi)%Z; discriminate. Qed.

Lemma show_Z_inj : forall a b, show_Z a = show_Z b -> a = b.
Proof.
  assert (H : forall n c t, show_N n = c :: t -> 48 <= c <= 57).
  { intros n c t E. pose proof (show_N_digits n) as D. rewrite E in D. cbn in D. unfold is_digit in D. lia. }
  intros [|p|p] [|q|q] E; cbn [show_Z] in E; try reflexivity;
    try (apply show_N_inj in E; lia);
    try (exfalso; symmetry in E; apply H in E; lia); try (exfalso; apply H in E; lia).
  injection E as E. apply show_N_inj in E. lia.
Qed.

Section Props.
Variable w : world.
Variable parse_f64 : str -> option spec_float.
Variable regex_sample : rng -> str -> option str.
Variable clock : when -> option str -> option str -> option json -> option str.
Variable url_parts : str -> str -> option (option (str * option str * str)).
Variable ctx : list (str * json).
Let text := text_value w parse_f64 regex_sample clock url_parts ctx.
Let status := status_value w parse_f64 ctx.
Let value := json_value w parse_f64 regex_sample clock url_parts ctx.

(** The texts a random decimal can be are exactly these. *)
Theorem C73_decimals : forall d s, (exists r, text r (GRandomDecimal d) = Ok s) <-> decimal_text (N.to_nat d) s.
Proof.
  intros d s. split.
  - intros [r H]. injection H as <-. apply decimal_sound.
  - intro H. destruct (decimal_complete _ _ H) as [r E]. exists r. cbn. rewrite E. reflexivity.
Qed.

(** A random integer is one of its bounds or between, except that the largest 32 bit integer never
    comes; when no number is left, generating panics, and otherwise it never does. *)
Theorem C73_integers : forall lo hi s, i32_range lo -> i32_range hi ->
  ((exists r, text r (GRandomInt lo hi) = Ok s) <-> exists z, s = show_Z z /\ (lo <= z <= hi)%Z /\ z <> 2147483647%Z).
Proof.
  intros lo hi s [L1 L2] [H1 H2]. split.
  - intros [r H]. cbn in H. unfold random_i32 in H. destruct (gen_range r lo _) as [z| |] eqn:E; try discriminate. injection H as <-.
    exists z. split; [reflexivity|]. assert (X : (lo <= z < Z.min 2147483647 (hi + 1))%Z) by (apply gen_range_any; eauto). lia.
  - intros (z & -> & H & Hz). destruct (proj2 (gen_range_any lo (Z.min 2147483647 (hi + 1)) z)) as [r E]; [lia|].
    exists r. cbn. unfold random_i32. rewrite E. reflexivity.
Qed.
Theorem C73_integers_panic : forall r lo hi, i32_range lo -> i32_range hi ->
  (text r (GRandomInt lo hi) = Panic <-> ~ exists z, (lo <= z <= hi)%Z /\ z <> 2147483647%Z) /\
  (forall e, text r (GRandomInt lo hi) <> Err e).
Proof.
  intros r lo hi [L1 L2] [H1 H2]. split.
  - cbn. unfold random_i32. destruct (gen_range r lo _) as [z| |] eqn:E; cbn [bind].
    + split; [discriminate|]. intro N. exfalso. apply N. exists z.
      assert (X : (lo <= z < Z.min 2147483647 (hi + 1))%Z) by (apply gen_range_any; eauto). lia.
    + apply gen_range_noerr in E. contradiction.
    + split; [|reflexivity]. intros _ (z & Hz & Hm). apply gen_range_panics in E. lia.
  - intro e. cbn. unfold random_i32. destruct (gen_range r lo _) as [z| |] eqn:E; cbn [bind]; try discriminate. apply gen_range_noerr in E. contradiction.
Qed.

(** A random status code within 16 bits is one of its bounds or between. *)
Theorem C73_statuses : forall lo hi old n, (0 <= lo <= hi)%Z -> (hi < 65535)%Z ->
  ((exists r, status r (GRandomInt lo hi) old = Ok n) <-> (lo <= Z.of_N n <= hi)%Z) /\
  (forall r, status r (GRandomInt lo hi) old <> Panic).
Proof.
  intros lo hi old n H Hh.
  assert (Em : forall z, (0 <= z < 65536)%Z -> (z mod 65536 = z)%Z) by (intros; apply Z.mod_small; lia).
  unfold status, status_value, random_u16. rewrite !Em by lia. replace (Z.min 65535 (hi + 1)) with (hi + 1)%Z by lia. split.
  - split.
    + intros [r E]. destruct (gen_range r lo (hi + 1)) as [z| |] eqn:G; try discriminate. injection E as <-.
      assert (X : (lo <= z < hi + 1)%Z) by (apply gen_range_any; eauto). lia.
    + intro Hn. destruct (proj2 (gen_range_any lo (hi + 1) (Z.of_N n))) as [r E]; [lia|]. exists r. rewrite E. cbn. rewrite N2Z.id. reflexivity.
  - intros r. destruct (gen_range r lo (hi + 1)) as [z| |] eqn:G; cbn; try discriminate. apply gen_range_panics in G. lia.
Qed.
(** Outside it wraps around: bounds may give other codes, or a panic. *)
Theorem C73_why_status_bounds :
  (forall r old, status r (GRandomInt (-1) 5) old = Panic) /\
  (forall r old, status r (GRandomInt 200 65736) old = Ok 200).
Proof.
  split; intros r old; cbn; [reflexivity|]. unfold random_u16, gen_range. cbn. rewrite Z.mod_1_r. reflexivity.
Qed.

Theorem C73_strings : forall n s,
  (exists r, text r (GRandomString n) = Ok s) <-> (length s = N.to_nat n /\ Forall letter_or_digit s).
Proof.
  intros n s. split.
  - intros [r H]. injection H as <-. unfold generate_ascii_string. split; [apply picks_length|].
    eapply Forall_impl; [|apply picks_in; discriminate]. intros c Hc. apply alphanumeric_in. exact Hc.
  - intros [L F]. destruct (picks_any alphanumeric s) as [d Hd].
    { eapply Forall_impl; [|exact F]. intros c Hc. apply alphanumeric_in. exact Hc. }
    exists (fun l => match l with [i] => d i | _ => 0 end). cbn. unfold generate_ascii_string. rewrite <- L, Hd by reflexivity. reflexivity.
Qed.

(** Hexadecimal digits are all different, so there are never more than sixteen. *)
Theorem C73_hexadecimals : forall r n s, text r (GRandomHexadecimal n) = Ok s ->
  length s = Nat.min (N.to_nat n) 16 /\ NoDup s /\ Forall (fun c => 48 <= c <= 57 \/ 65 <= c <= 70) s.
Proof.
  intros r n s H. injection H as <-. destruct (hexadecimal_ok r (N.to_nat n)) as (A & B & C).
  split; [exact B|]. split; [exact A|]. apply Forall_forall. intros c Hc. apply C in Hc. unfold hex_charset in Hc. cbn [S_ In] in Hc.
  repeat (destruct Hc as [<-|Hc]; [cbv; intuition discriminate|]). destruct Hc.
Qed.

Lemma upper_fits : forall s, fits pattern_lower s -> fits pattern_upper (to_upper w s).
Proof.
  intros s H.
  assert (U : forall p s, Forall (fun c => (c =? 120) = true \/ (c =? 121) = true \/ ((c =? 88) = false /\ (c =? 89) = false /\ c < 97)) p -> fits p s ->
    fits (map (fun c => if c =? 120 then 88 else if c =? 121 then 89 else c) p) (to_upper w s)).
  { clear. intros p s F H. revert F. induction H as [|a c p s Hc H IH]; intro F; [constructor|].
    inversion F as [|? ? Fa F']; subst. specialize (IH F'). unfold to_upper in *. cbn [map flat_map].
    assert (X : c < 128 /\ fits_char (if a =? 120 then 88 else if a =? 121 then 89 else a) (ascii_up c)).
    { unfold fits_char in Hc. unfold ascii_up, is_lower. destruct Fa as [E|[E|(E1 & E2 & E3)]].
      - rewrite E in Hc |- *. assert (Ea : fits_char 88 = fun c => 48 <= c <= 57 \/ 65 <= c <= 70) by reflexivity. rewrite Ea.
        destruct ((97 <=? c) && (c <=? 122)) eqn:L; lia.
      - destruct (a =? 120) eqn:E0; [lia|]. destruct (a =? 88) eqn:E00; [lia|]. rewrite E in Hc |- *.
        assert (Ea : fits_char 89 = fun c => c = 56 \/ c = 57 \/ c = 65 \/ c = 66) by reflexivity. rewrite Ea.
        destruct ((97 <=? c) && (c <=? 122)) eqn:L; lia.
      - destruct (a =? 120) eqn:E0; [lia|]. destruct (a =? 121) eqn:E00; [lia|]. rewrite E1, E2 in Hc. subst c.
        split; [lia|]. unfold fits_char. rewrite E0, E1, E00, E2. destruct ((97 <=? a) && (a <=? 122)) eqn:L; [lia|reflexivity]. }
    destruct X as [X1 X2]. replace (c <? 128) with true by lia. cbn [app]. constructor; [exact X2|exact IH]. }
  exact (U pattern_lower s ltac:(repeat (constructor; [vm_compute; tauto|]); constructor) H).
Qed.

(** The four formats of a UUID (version 4). *)
Theorem C73_uuids : forall r f s, text r (GUuid f) = Ok s ->
  match f with
  | Some USimple => fits (S_ "xxxxxxxxxxxx4xxxyxxxxxxxxxxxxxxx") s
  | Some ULower | None => fits (S_ "xxxxxxxx-xxxx-4xxx-yxxx-xxxxxxxxxxxx") s
  | Some UUpper => fits (S_ "XXXXXXXX-XXXX-4XXX-YXXX-XXXXXXXXXXXX") s
  | Some UUrn => exists t, s = S_ "urn:uuid:" ++ t /\ fits (S_ "xxxxxxxx-xxxx-4xxx-yxxx-xxxxxxxxxxxx") t
  end.
Proof.
  intros r f s H. injection H as <-. destruct f as [[]|]; cbn [uuid_text].
  - apply simple_fits.
  - apply hyphenated_fits.
  - apply upper_fits, hyphenated_fits.
  - exists (uuid_hyphenated r). split; [reflexivity|apply hyphenated_fits].
  - apply hyphenated_fits.
Qed.

Theorem C73_booleans : forall s, (exists r, text r GRandomBoolean = Ok s) <-> s = S_ "true" \/ s = S_ "false".
Proof.
  intro s. split.
  - intros [r H]. cbn in H. injection H as <-. destruct (N.odd (draw r 0)); auto.
  - intros [->| ->]; [exists (fun _ => 1)|exists (fun _ => 0)]; reflexivity.
Qed.

(** The pattern a text is made from: without the anchors when it has both or neither. With only the
    first one it is used as it is, anchor included. *)
Theorem C73_regex_anchors : forall p,
  strip_anchors (S_ "^" ++ p ++ S_ "$") = p /\
  (hd 0 p <> 94 -> strip_anchors (p ++ S_ "$") = p) /\
  (last p 0 <> 36 -> strip_anchors (S_ "^" ++ p) = S_ "^" ++ p /\ strip_anchors p = p).
Proof.
  intro p. unfold strip_anchors. change (S_ "$") with [36]. change (S_ "^") with [94]. split; [|split].
  - cbn [app]. change (94 =? 94) with true. cbv iota. rewrite rev_app_distr. cbn [rev app]. change (36 =? 36) with true. cbv iota. apply rev_involutive.
  - intro H. destruct p as [|c p]; [reflexivity|]. cbn [hd] in H. cbn [app]. destruct (c =? 94) eqn:E; [lia|].
    assert (X : rev (c :: p ++ [36]) = 36 :: rev (c :: p)) by (change (c :: p ++ [36]) with ((c :: p) ++ [36]); rewrite rev_app_distr; reflexivity).
    rewrite X. change (36 =? 36) with true. cbv iota. apply rev_involutive.
  - intro H.
    assert (G : forall q, last q 0 <> 36 -> forall z : str, (match rev q with [] => z | c :: t => if c =? 36 then rev t else z end) = z).
    { intros q Hq z. destruct (rev q) as [|c t] eqn:E; [reflexivity|]. destruct (c =? 36) eqn:Ec; [|reflexivity]. exfalso.
      apply Hq. rewrite <- (rev_involutive q), E. cbn [rev]. rewrite last_last. lia. }
    split; [cbn [app]; change (94 =? 94) with true; cbv iota; apply G; exact H|].
    destruct p as [|c p]; [reflexivity|]. destruct (c =? 94) eqn:E; [|apply G; exact H].
    destruct p as [|d p]; [reflexivity|]. apply G. exact H.
Qed.

(** * JSON bodies *)
(** In place of a text the same text comes as elsewhere. *)
Theorem C73_json_texts : forall r g old v,
  match g with GProviderState _ _ | GMockServerURL _ _ | GRandomBoolean | GArrayContains _ => False | _ => True end ->
  (value r g (JStr old) = Ok v <-> exists s, v = JStr s /\ text r g = Ok s).
Proof.
  intros r g old v H. destruct g; try contradiction; cbn;
    try (split; [intro E; injection E as <-; eauto|intros (s & -> & E); injection E as <-; reflexivity]).
  - destruct (random_i32 r min max) as [z| |]; cbn; (split; [intro E|intros (s & -> & E)]); try discriminate; injection E as <-; eauto.
  - destruct (regex_sample r (strip_anchors regex)); cbn; (split; [intro E|intros (s' & -> & E)]); try discriminate; injection E as <-; eauto.
  - destruct (clock_value clock ctx ADate format expression); cbn; (split; [intro E|intros (s' & -> & E)]); try discriminate; injection E as <-; eauto.
  - destruct (clock_value clock ctx ATime format expression); cbn; (split; [intro E|intros (s' & -> & E)]); try discriminate; injection E as <-; eauto.
  - destruct (clock_value clock ctx ADateTime format expression); cbn; (split; [intro E|intros (s' & -> & E)]); try discriminate; injection E as <-; eauto.
Qed.
(** In place of anything else: a random integer is a number, a UUID is hyphenated in lower case. *)
Theorem C73_json_others : forall r old v, (forall s, old <> JStr s) ->
  (forall lo hi, value r (GRandomInt lo hi) old = Ok v <-> exists z, v = json_of_i64 z /\ text r (GRandomInt lo hi) = Ok (show_Z z)) /\
  (forall f, value r (GUuid f) old = Ok v <-> exists s, v = JStr s /\ text r (GUuid (Some ULower)) = Ok s) /\
  (value r GRandomBoolean old = Ok v <-> exists b, v = JBool b /\ text r GRandomBoolean = Ok (if b then S_ "true" else S_ "false")).
Proof.
  intros r old v N. split; [|split].
  - intros lo hi. cbn. destruct (random_i32 r lo hi) as [z| |]; cbn.
    + split.
      * intro E. exists z. split; [|reflexivity]. destruct old; try (injection E as <-; reflexivity). exfalso. eapply N. reflexivity.
      * intros (z' & -> & E). injection E as E. apply show_Z_inj in E. subst. destruct old; try reflexivity. exfalso. eapply N. reflexivity.
    + split; [discriminate|intros (? & _ & ?); discriminate].
    + split; [discriminate|intros (? & _ & ?); discriminate].
  - intro f. cbn. split.
    + intro E. exists (uuid_hyphenated r). split; [|reflexivity]. destruct old; try (injection E as <-; reflexivity). exfalso. eapply N. reflexivity.
    + intros (s & -> & E). injection E as <-. destruct old; try reflexivity. exfalso. eapply N. reflexivity.
  - cbn. split.
    + intro E. injection E as <-. eexists. split; reflexivity.
    + intros (b & -> & E). injection E as E. destruct (N.odd (draw r 0)), b; try reflexivity; discriminate.
Qed.
(** In place of a number a random decimal is read as a number; a text that cannot be read (no digits)
    leaves the number, one that is too large gives null. *)
Theorem C73_json_decimals : forall r d n,
  (forall v, value r (GRandomDecimal d) (JNum n) = Ok v <->
    exists s f, decimal_text (N.to_nat d) s /\ text r (GRandomDecimal d) = Ok s /\ parse_f64 s = Some f /\
      v = if float_finite f then JNum (Float f) else JNull) /\
  (forall s, text r (GRandomDecimal d) = Ok s -> parse_f64 s = None -> value r (GRandomDecimal d) (JNum n) = Err tt).
Proof.
  intros r d n. cbn. split.
  - intro v. destruct (parse_f64 (generate_decimal r (N.to_nat d))) as [f|] eqn:E; cbn.
    + split.
      * intro H. injection H as <-. do 2 eexists. split; [apply decimal_sound|]. split; [reflexivity|]. split; [exact E|reflexivity].
      * intros (s & f' & _ & H & E' & ->). injection H as <-. rewrite E in E'. injection E' as <-. reflexivity.
    + split; [discriminate|]. intros (s & f' & _ & H & E' & ->). injection H as <-. congruence.
  - intros s H E. injection H as <-. rewrite E. reflexivity.
Qed.

(** * What is generated is accepted by the rule that goes with it *)
Theorem C73_accepted : forall r old v c,
  (forall lo hi, i32_range lo -> i32_range hi -> (forall s, old <> JStr s) -> value r (GRandomInt lo hi) old = Ok v ->
     json_matches w old v RInteger c = true /\ json_matches w old v RNumber c = true) /\
  (forall n lo hi, old = JNum n -> value r (GRandomInt lo hi) old = Ok v -> json_matches w old v RType c = true) /\
  (value r GRandomBoolean old = Ok v -> json_matches w old v RBoolean c = true) /\
  (forall b, old = JBool b -> value r GRandomBoolean old = Ok v -> json_matches w old v RType c = true) /\
  (forall g s, old = JStr s -> match g with GProviderState _ _ | GRandomBoolean | GArrayContains _ => False | _ => True end ->
     value r g old = Ok v -> json_matches w old v RType c = true) /\
  (forall d n, old = JNum n -> v <> JNull -> value r (GRandomDecimal d) old = Ok v ->
     json_matches w old v RDecimal c = true /\ json_matches w old v RNumber c = true /\ json_matches w old v RType c = true).
Proof.
  intros r old v c. repeat split.
  1,2: destruct (C73_json_others r old v H1) as [E _]; apply E in H2; destruct H2 as (z & -> & _); unfold json_of_i64; destruct (0 <=? z)%Z; try reflexivity; apply orb_true_r.
  - intros n lo hi -> H. destruct (C73_json_others r (JNum n) v ltac:(discriminate)) as [E _]; apply E in H; destruct H as (z & -> & _).
    unfold json_of_i64; destruct (0 <=? z)%Z; reflexivity.
  - intro H. injection H as <-. reflexivity.
  - intros b -> H. injection H as <-. reflexivity.
  - intros g s -> Hg H. destruct g; try contradiction; cbn in H;
      try (injection H as <-; reflexivity);
      match type of H with bind ?x _ = _ => destruct x; try discriminate; injection H as <-; reflexivity end.
  - subst old. apply (proj1 (C73_json_decimals r d n) v) in H1. destruct H1 as (s & f & _ & _ & _ & ->).
    destruct (float_finite f); [reflexivity|contradiction].
  - subst old. apply (proj1 (C73_json_decimals r d n) v) in H1. destruct H1 as (s & f & _ & _ & _ & ->).
    destruct (float_finite f); [reflexivity|contradiction].
  - subst old. apply (proj1 (C73_json_decimals r d n) v) in H1. destruct H1 as (s & f & _ & _ & _ & ->).
    destruct (float_finite f); [reflexivity|contradiction].
Qed.
(** In headers, query parameters and paths too, but only when no negative number can come. *)
Theorem C73_accepted_texts : forall r e s c,
  (forall lo hi, (0 <= lo)%Z -> i32_range hi -> text r (GRandomInt lo hi) = Ok s -> str_matches w e s RInteger c = true) /\
  (text r GRandomBoolean = Ok s -> str_matches w e s RBoolean c = true) /\
  (forall d, (forall t n, decimal_text n t -> n <> O -> parse_float_ok w t = true) -> d <> 0 -> text r (GRandomDecimal d) = Ok s ->
     str_matches w e s RDecimal c = true /\ str_matches w e s RNumber c = true) /\
  (forall lo hi, i32_range lo -> (hi < 0)%Z -> text r (GRandomInt lo hi) = Ok s -> str_matches w e s RInteger c = false).
Proof.
  intros r e s c. split; [|split; [|split]].
  - intros lo hi L [H1 H2] E. cbn in E. unfold random_i32 in E. destruct (gen_range r lo _) as [z| |] eqn:G; try discriminate. injection E as <-.
    assert (X : (lo <= z < Z.min 2147483647 (hi + 1))%Z) by (apply gen_range_any; eauto).
    cbn [str_matches]. assert (P : parse_usize (show_Z z) = Some (Z.to_N z)).
    { assert (show_Z z = show_N (Z.to_N z)) as -> by (destruct z; try reflexivity; lia). apply parse_usize_show. unfold two64. lia. }
    rewrite P. reflexivity.
  - intro E. apply (fun h => proj1 (C73_booleans s) (ex_intro _ r h)) in E. destruct E as [->| ->]; reflexivity.
  - intros d H D E. cbn [str_matches]. assert (P : parse_float_ok w s = true).
    { apply (H s (N.to_nat d)); [|lia]. apply C73_decimals. eauto. }
    split; exact P.
  - intros lo hi L H E. cbn in E. unfold random_i32 in E. destruct (gen_range r lo _) as [z| |] eqn:G; try discriminate. injection E as <-.
    assert (X : (lo <= z < Z.min 2147483647 (hi + 1))%Z) by (apply gen_range_any; eauto).
    cbn [str_matches]. destruct z as [|p|p]; try lia. cbn [show_Z]. unfold parse_usize.
    destruct (show_N (N.pos p)) eqn:Es; reflexivity.
Qed.

(** * Array contains *)
Definition gen_of (f : nat -> json -> outcome json unit) (n : nat) (x : json) : option json :=
  match f n x with Ok y => Some y | _ => None end.
Lemma value_at_update : forall tokens f v,
  match value_at tokens v with
  | Some x => update_at tokens f v = update_at tokens (fun _ => f x) v
  | None => update_at tokens f v = v
  end.
Proof.
  induction tokens as [|t ts IH]; intros f v; [reflexivity|].
  destruct v as [| | | |l|m]; try reflexivity; cbn [value_at update_at].
  - destruct (pointer_index t) as [i|]; [|reflexivity].
    destruct (nth_error l (N.to_nat i)) as [x|] eqn:E.
    + specialize (IH f x).
      assert (U : forall g, list_update (N.to_nat i) g l = firstn (N.to_nat i) l ++ g x :: skipn (S (N.to_nat i)) l).
      { intro g. revert E. generalize (N.to_nat i). clear. induction l as [|y l IHl]; intros [|k] E; try discriminate; cbn in *.
        - injection E as ->. reflexivity.
        - rewrite IHl by exact E. reflexivity. }
      destruct (value_at ts x).
      * rewrite !U, IH. reflexivity.
      * rewrite U, IH. f_equal. clear - E. revert l E. generalize (N.to_nat i). induction n as [|n IHn]; intros [|y l] E; try discriminate; cbn in *; [injection E as ->; reflexivity|].
        f_equal. apply IHn. exact E.
    + f_equal. revert E. generalize (N.to_nat i). clear. induction l as [|y l IHl]; intros [|k] E; try reflexivity; try discriminate; cbn in *. f_equal. apply IHl. exact E.
  - destruct (obj_get t m) as [x|] eqn:E.
    + specialize (IH f x).
      assert (U : forall g, (forall x', g x' = g x') -> obj_update t g m = obj_update t (fun _ => g x) m).
      { intros g _. revert E. clear. induction m as [|[k y] m IHm]; intro E; [reflexivity|]. cbn in *. destruct (str_eqb t k); [injection E as ->; reflexivity|].
        f_equal. apply IHm. exact E. }
      rewrite (U (update_at ts f)) by reflexivity.
      destruct (value_at ts x).
      * rewrite IH. rewrite (U (update_at ts (fun _ => f j))) by reflexivity. reflexivity.
      * rewrite IH. f_equal. revert E. clear. induction m as [|[k y] m IHm]; intro E; [reflexivity|]. cbn in *. destruct (str_eqb t k); [injection E as ->; reflexivity|].
        f_equal. apply IHm. exact E.
    + f_equal. revert E. clear. induction m as [|[k y] m IHm]; intro E; [reflexivity|]. cbn in *. destruct (str_eqb t k); [discriminate|].
      f_equal. apply IHm. exact E.
Qed.
Lemma update_id : forall tokens v, update_at tokens (fun x => x) v = v.
Proof.
  induction tokens as [|t ts IH]; intro v; [reflexivity|]. destruct v as [| | | |l|m]; try reflexivity; cbn [update_at].
  - destruct (pointer_index t) as [i|]; [|reflexivity]. f_equal. generalize (N.to_nat i). induction l as [|y l IHl]; intros [|k]; cbn; try reflexivity; [rewrite IH|rewrite IHl]; reflexivity.
  - f_equal. induction m as [|[k y] m IHm]; [reflexivity|]. cbn. destruct (str_eqb t k); [rewrite IH|rewrite IHm]; reflexivity.
Qed.
Lemma apply_key_o_ok : forall f key v v', apply_key_o f key v = Ok v' -> apply_key (gen_of f) key v = v'.
Proof.
  intros f key v v' H. unfold apply_key_o in H. unfold apply_key.
  assert (P : forall ps n v v', apply_pointers_o f n ps v = Ok v' -> apply_pointers (gen_of f) n ps v = v').
  { clear. induction ps as [|p ps IH]; intros n v v' H; cbn in *; [injection H as ->; reflexivity|].
    destruct (pointer_tokens p) as [tokens|]; [|apply IH; exact H].
    pose proof (value_at_update tokens (generated (gen_of f n)) v) as U.
    destruct (value_at tokens v) as [x|] eqn:Ev; rewrite U.
    - unfold generated at 1, gen_of at 2. destruct (f n x) as [x'| |]; try discriminate; cbn [bind] in H; [apply IH; exact H|].
      replace (update_at tokens (fun _ => x) v) with v; [apply IH; exact H|].
      pose proof (value_at_update tokens (fun y => y) v) as X. rewrite Ev in X. rewrite <- X. symmetry. apply update_id.
    - apply IH. exact H. }
  destruct (resolve_path v key) as [|p ps].
  - destruct (Nat.eqb (length (path_tokens key)) 1); [|injection H as ->; reflexivity].
    unfold generated, gen_of. destruct (f O v); [injection H as ->; reflexivity|injection H as ->; reflexivity|discriminate].
  - apply P. exact H.
Qed.

(** What a generator may make of a value in a JSON body; after a failure the value stays. *)
Definition may_become (g : generator) (x y : json) : Prop :=
  exists r, value r g x = Ok y \/ (y = x /\ forall z, value r g x <> Ok z).

Definition apply_gens (r : nat -> nat -> rng) :=
  fix apply (j : nat) (gs : list (docpath * generator)) (doc : json) {struct gs} : outcome json unit :=
    match gs with
    | [] => Ok doc
    | (key, g') :: gs' =>
        bind (apply_key_o (fun n x => json_value w parse_f64 regex_sample clock url_parts ctx (r j n) g' x) key doc)
          (fun doc' => apply (S j) gs' doc')
    end.
Definition find_variant (r : rng) (i : nat) (v : json) :=
  fix find (vs : list (N * category * list (docpath * generator))) : outcome json unit :=
    match vs with
    | [] => Ok v
    | (_, rules, gens) :: vs' =>
        if satisfies w rules v then apply_gens (fun j => sub (sub (sub r i) j)) O gens v
        else find vs'
    end.
Lemma array_contains_eq : forall r vs l,
  value r (GArrayContains vs) (JArr l) = bind (each (fun i v => find_variant r i v vs) O l) (fun l => Ok (JArr l)).
Proof. reflexivity. Qed.
Lemma apply_gens_ok : forall gs r j x y, apply_gens r j gs x = Ok y -> in_turn may_become gs x y.
Proof.
  induction gs as [|[key g] gs IH]; intros r j x y H; cbn in H; [injection H as ->; reflexivity|].
  destruct (apply_key_o _ key x) as [u| |] eqn:E; try discriminate. cbn [bind] in H.
  cbn [in_turn]. exists u. split; [|exact (IH r (S j) u y H)].
  intros path B W P. apply apply_key_o_ok in E. rewrite <- E.
  set (gen := gen_of _).
  assert (X : forall a b, outcome_of gen a b -> may_become g a b).
  { intros a b (n & Hn). exists (r j n). unfold gen, gen_of in Hn. unfold value.
    destruct (json_value w parse_f64 regex_sample clock url_parts ctx (r j n) g a) as [z| |]; destruct Hn as [Hn|[Hn ->]]; try discriminate.
    - injection Hn as ->. left. reflexivity.
    - right. split; [reflexivity|discriminate].
    - right. split; [reflexivity|discriminate]. }
  apply (changed_impl _ _ _ _ _ X). apply C71_exactly_the_addressed_values_change; assumption.
Qed.
(** The elements of an array one by one: the generators of the first variant whose rules the element,
    compared with itself, satisfies; an element no variant takes stays. *)
Theorem C73_array_contains : forall r vs v v', value r (GArrayContains vs) v = Ok v' ->
  exists l l', v = JArr l /\ v' = JArr l' /\
    Forall2 (fun x y =>
      (y = x /\ Forall (fun c => ~ satisfies_on_itself w (snd (fst c)) x) vs) \/
      (exists vs1 k rules gens vs2, vs = vs1 ++ (k, rules, gens) :: vs2 /\
         Forall (fun c => ~ satisfies_on_itself w (snd (fst c)) x) vs1 /\ satisfies_on_itself w rules x /\
         in_turn may_become gens x y)) l l'.
Proof.
  intros r vs v v' H. destruct v as [| | | |l|]; try discriminate. rewrite array_contains_eq in H.
  destruct (each _ O l) as [l'| |] eqn:E; try discriminate. injection H as <-. exists l, l'. split; [reflexivity|]. split; [reflexivity|].
  revert E. generalize O. revert l'. induction l as [|x l IH]; intros l' i E; cbn in E; [injection E as <-; constructor|].
  destruct (find_variant r i x vs) as [y| |] eqn:F; try discriminate. cbn [bind] in E.
  destruct (each _ (S i) l) as [l2| |] eqn:E2; try discriminate. injection E as <-. constructor; [|exact (IH l2 (S i) E2)].
  clear - F. induction vs as [|[[k rules] gens] vs IH]; cbn in F.
  - injection F as <-. left. split; [reflexivity|constructor].
  - unfold satisfies in F. destruct (compare_json w path_root x x (mkCtx false rules)) as [|m ms] eqn:C.
    + right. exists [], k, rules, gens, vs. split; [reflexivity|]. split; [constructor|]. split; [exact C|]. eapply apply_gens_ok. exact F.
    + assert (Nm : ~ satisfies_on_itself w rules x) by (unfold satisfies_on_itself; rewrite C; discriminate).
      destruct (IH F) as [[-> A]|(vs1 & k2 & rules2 & gens2 & vs2 & -> & A & B & D)].
      * left. split; [reflexivity|]. constructor; assumption.
      * right. exists ((k, rules, gens) :: vs1), k2, rules2, gens2, vs2. split; [reflexivity|]. split; [constructor; assumption|]. split; assumption.
Qed.

(** * Mock server URLs *)
Theorem C73_mock_server_url : forall r example regex s,
  text r (GMockServerURL example regex) = Ok s <->
  exists details url, obj_get (S_ "mockServer") ctx = Some (JObj details) /\
    obj_get (S_ "url") details = Some url /\
    ((url_parts regex example = Some None /\ s = example) \/
     exists a g b, url_parts regex example = Some (Some (a, Some g, b)) /\ s = a ++ json_to_string w url ++ g ++ b).
Proof.
  intros r example regex s. cbn [text text_value]. unfold text, text_value, mock_server_url. split.
  - intro H. destruct (obj_get (S_ "mockServer") ctx) as [[| | | | |m]|]; try discriminate. cbn [fold_left] in H. unfold get_field_as_string in H.
    destruct (obj_get (S_ "url") m) as [u|] eqn:Eu; [|discriminate]. cbn [option_map] in H. exists m, u. split; [reflexivity|]. split; [exact Eu|].
    destruct (url_parts regex example) as [[[[a [g|]] b]|]|]; try discriminate; injection H as <-; [right; eauto|left; auto].
  - intros (m & u & -> & Eu & H). cbn [fold_left]. unfold get_field_as_string. rewrite Eu. cbn [option_map].
    destruct H as [[-> ->]|(a & g & b & -> & ->)]; reflexivity.
Qed.

(** * Panics *)
Definition may_panic (g : generator) (names : list str) : Prop :=
  match g with
  | GRandomInt lo hi => ~ exists z, (lo <= z <= hi)%Z /\ z <> 2147483647%Z
  | GProviderState e d => value_from_context (state_context ctx) w e = Panic
  | GMockServerURL example regex =>
      (exists m k, obj_get (S_ "mockServer") ctx = Some (JObj m) /\ In k names /\ obj_get k m <> None) /\
      exists a b, url_parts regex example = Some (Some (a, None, b))
  | _ => False
  end.
Lemma mock_panics : forall names example regex, mock_server_url w url_parts ctx names example regex = Panic <-> may_panic (GMockServerURL example regex) names.
Proof.
  intros names example regex. unfold mock_server_url, may_panic.
  assert (F : forall m names o, fold_left (fun o k => match o with Some u => Some u | None => get_field_as_string w k m end) names o <> None <->
     (o <> None \/ exists k, In k names /\ obj_get k m <> None)).
  { clear. intro m. induction names as [|k ns IH]; intros o; cbn [fold_left].
    - split; [auto|]. intros [H|(k & [] & _)]. exact H.
    - rewrite IH. unfold get_field_as_string. destruct o as [u|]; [split; intros; left; discriminate|].
      destruct (obj_get k m) as [x|] eqn:E; cbn [option_map]; split.
      + intros _. right. exists k. split; [left; reflexivity|rewrite E; discriminate].
      + intros _. left. discriminate.
      + intros [H|(k' & H & H')]; [contradiction|]. right. exists k'. split; [right; exact H|exact H'].
      + intros [H|(k' & [<-|H] & H')]; [contradiction|congruence|]. right. exists k'. auto. }
  destruct (obj_get (S_ "mockServer") ctx) as [[| | | | |m]|] eqn:Em.
  6: { specialize (F m names None).
       destruct (fold_left _ names None) as [u|].
       - assert (X : exists k, In k names /\ obj_get k m <> None).
         { destruct (proj1 F ltac:(discriminate)) as [H|H]; [contradiction|exact H]. }
         destruct X as (k & K1 & K2). split.
         + intro H. split; [exists m, k; auto|]. destruct (url_parts regex example) as [[[[a [g|]] b]|]|]; try discriminate. eauto.
         + intros [_ (a & b & ->)]. reflexivity.
       - split; [discriminate|]. intros [(m' & k & E & K1 & K2) _]. injection E as <-. exfalso. apply (proj2 F); [|reflexivity]. right. eauto. }
  all: split; [discriminate|intros [(m' & k & E & _) _]; discriminate].
Qed.
(** Generating a value in a JSON body panics exactly for an empty range, an expression that panics (C68)
    and a URL pattern that matches without its first group. *)
Theorem C73_panics_in_bodies : forall r g v,
  (forall lo hi, g = GRandomInt lo hi -> i32_range lo /\ i32_range hi) ->
  (forall vs, g <> GArrayContains vs) ->
  (value r g v = Panic <-> may_panic g [S_ "url"; S_ "href"]).
Proof.
  intros r g v R NA. destruct g; cbn [may_panic]; try (split; [discriminate|contradiction]).
  - destruct (R _ _ eq_refl) as [R1 R2]. rewrite <- (proj1 (C73_integers_panic r min max R1 R2)). cbn.
    destruct (random_i32 r min max); cbn; split; intro H; try discriminate; reflexivity.
  - cbn. destruct v; try (split; [discriminate|contradiction]). destruct (parse_f64 _); cbn; split; try discriminate; contradiction.
  - cbn. destruct (regex_sample _ _); cbn; split; try discriminate; contradiction.
  - cbn. destruct (clock_value _ _ _ _ _); cbn; split; try discriminate; contradiction.
  - cbn. destruct (clock_value _ _ _ _ _); cbn; split; try discriminate; contradiction.
  - cbn. destruct (clock_value _ _ _ _ _); cbn; split; try discriminate; contradiction.
  - cbn. unfold provider_state_json. destruct (value_from_context _ w expression) as [x| |] eqn:E; cbn [bind]; (split; [intro H|intro H]); try discriminate; try reflexivity.
    exfalso. exact (C69_conversion_in_bodies_never_aborts _ _ _ _ H).
  - pose proof (mock_panics [S_ "url"; S_ "href"] example regex) as M. cbn [may_panic] in M. rewrite <- M. clear M. unfold value, json_value. destruct (mock_server_url _ _ _ _ _ _); cbn; split; intro H; try discriminate; reflexivity.
  - exfalso. eapply NA. reflexivity.
Qed.
End Props.

Example C73_example : forall w parse_f64 regex_sample clock url_parts,
  (exists r, text_value w parse_f64 regex_sample clock url_parts [] r (GRandomDecimal 3) = Ok (S_ "4.08")) /\
  (forall r, text_value w parse_f64 regex_sample clock url_parts [] r (GRandomDecimal 3) <> Ok (S_ "0.05")) /\
  (exists r, text_value w parse_f64 regex_sample clock url_parts [] r (GRandomInt 5 7) = Ok (S_ "7")) /\
  json_value w parse_f64 regex_sample clock url_parts [] (fun _ => 1)
    (GArrayContains [(0, mkCat CBody [(push_field path_root (S_ "a"), mkRules [RBoolean] And false)], [(push_field path_root (S_ "a"), GRandomBoolean)]);
                     (1, mkCat CBody [], [(push_field path_root (S_ "b"), GRandomInt 3 3)])])
    (JArr [JObj [(S_ "a", JBool false); (S_ "b", JNull)]; JObj [(S_ "a", JNull); (S_ "b", JNull)]]) =
  Ok (JArr [JObj [(S_ "a", JBool true); (S_ "b", JNull)]; JObj [(S_ "a", JNull); (S_ "b", JNum (PosInt 3))]]).
Proof.
  intros w pf rs ck up. split; [|split; [|split]].
  - apply C73_decimals. exists (S_ "4"), (S_ "08"). split; [reflexivity|]. split; [repeat constructor; cbv; discriminate|].
    split; [reflexivity|]. split; [cbn; lia|]. split; [cbn; lia|]. cbn. discriminate.
  - intros r H. assert (D : decimal_text 3 (S_ "0.05")) by (apply (C73_decimals w pf rs ck up [] 3); eauto).
    destruct D as (a & b & E & _ & L & La & Lb & Z). destruct a as [|x [|y a]]; [cbn in La; lia| |].
    + cbn in E. injection E as <- <-. destruct (Z eq_refl) as [_ X]. apply X. reflexivity.
    + rewrite app_length in L. cbn in L, Lb. lia.
  - apply C73_integers; [split; cbv; congruence|split; cbv; congruence|]. exists 7%Z. split; [reflexivity|]. split; lia.
  - reflexivity.
Qed.
