(** C69: a converted value stands for the same thing. *)
From Coq Require Import String List Arith NArith ZArith Lia Bool Floats.SpecFloat.
From Verif Require Import Base Json Text Expr SpecExpr FloatProofs FloatExact.
Import ListNotations.
Open Scope N_scope.
Local Opaque show_N.

Section Convert.
Variable w : world.
Variable parse_f64 : str -> option spec_float.

Lemma truncated_eq : forall f, float_finite f = true -> float_to_i64 f = truncated f.
Proof.
  intros [s|s| |s m e] H; try discriminate; [reflexivity|]. unfold float_to_i64, truncated.
  change (2 ^ 63)%Z with 9223372036854775808%Z. cbv zeta.
  assert (A : (match e with Zneg p => Z.pos m / 2 ^ Z.pos p | Z0 => Z.pos m | Zpos p => Z.pos m * 2 ^ Z.pos p end =
               if 0 <=? e then Z.pos m * 2 ^ e else Z.pos m / 2 ^ (- e))%Z).
  { destruct e; cbn [Z.leb Z.compare Z.opp]; [cbn [Z.pow]; lia|reflexivity|reflexivity]. }
  rewrite A. set (v := (if (0 <=? e)%Z then _ else _)).
  assert (V : (0 <= v)%Z).
  { unfold v. destruct (0 <=? e)%Z eqn:Le; [apply Z.mul_nonneg_nonneg; [lia|apply Z.pow_nonneg; lia]|apply Z.div_pos; [lia|]].
    apply Z.pow_pos_nonneg; lia. }
  clearbody v. destruct s; lia.
Qed.
Lemma whole_of_i64 : forall z, whole (json_of_i64 z) = Some z.
Proof.
  intro z. unfold json_of_i64. destruct (0 <=? z)%Z eqn:E; cbn [whole]; [|reflexivity]. apply Z.leb_le in E. rewrite Z2N.id by exact E. reflexivity.
Qed.
(** In a body an INTEGER is the whole number the value stands for. *)
Theorem C69_integers_keep_their_worth : forall v r, json_wf v -> as_json w parse_f64 DInteger v = Ok r ->
  whole r = whole v /\ exists z, whole v = Some z.
Proof.
  intros v r W H. destruct v as [|b|[n|z|f]|s|l|m]; cbn [as_json] in H; try discriminate.
  - injection H as <-. split; [reflexivity|eexists; reflexivity].
  - injection H as <-. destruct b; (split; [reflexivity|eexists; reflexivity]).
  - injection H as <-. split; [reflexivity|eexists; reflexivity].
  - injection H as <-. split; [reflexivity|eexists; reflexivity].
  - injection H as <-. rewrite whole_of_i64. cbn [whole]. rewrite truncated_eq by exact W. split; [reflexivity|eexists; reflexivity].
  - destruct (parse_usize s) as [n|] eqn:E; [|discriminate]. injection H as <-. cbn [whole]. rewrite E. split; [reflexivity|]. eexists; reflexivity.
Qed.
(** In a path, header or query parameter it is written in decimal, up to 64 bits with sign. *)
Theorem C69_integers_as_text : forall v z, json_wf v -> (forall s, v <> JStr s) -> whole v = Some z -> (z < 2 ^ 63)%Z ->
  data_value_to_string w parse_f64 DInteger v = Ok (show_Z z).
Proof.
  intros v z W N H L. change (2 ^ 63)%Z with 9223372036854775808%Z in L. destruct v as [|b|[n|x|f]|s|l|m]; try discriminate; cbn [whole] in H.
  - injection H as <-. reflexivity.
  - destruct b; injection H as <-; reflexivity.
  - injection H as <-. cbn [data_value_to_string try_i64 display]. unfold u64_to_i64.
    assert (X : (n <? 9223372036854775808) = true) by (apply N.ltb_lt; lia). rewrite X. reflexivity.
  - injection H as <-. reflexivity.
  - injection H as <-. cbn [data_value_to_string try_i64 display]. rewrite truncated_eq by exact W. reflexivity.
  - exfalso. eapply N. reflexivity.
Qed.
(** A DECIMAL (or FLOAT) is exactly the whole number the value stands for, up to 53 bits. *)
Theorem C69_decimals_keep_their_worth : forall d v z r, (d = DDecimal \/ d = DFloat) ->
  match v with JNull | JBool _ | JNum (PosInt _) | JNum (NegInt _) => True | _ => False end ->
  whole v = Some z -> (- 2 ^ 53 < z < 2 ^ 53)%Z ->
  as_json w parse_f64 d v = Ok r -> exists f, r = JNum (Float f) /\ is_whole f z.
Proof.
  intros d v z r D K Hw L H.
  assert (E : as_json w parse_f64 DFloat v = Ok r) by (destruct D as [->| ->]; exact H). clear H D.
  assert (F : forall z, (- 2 ^ 53 < z < 2 ^ 53)%Z -> json_of_f64 (Z_to_float z) = JNum (Float (Z_to_float z)) /\ is_whole (Z_to_float z) z).
  { clear. intros z Hz. split.
    - unfold json_of_f64. rewrite Z_to_float_finite by lia. reflexivity.
    - pose proof (Z_to_float_exact z Hz) as X. unfold is_integer in X. unfold is_whole. destruct (Z_to_float z); try exact X. tauto. }
  destruct v as [|b|[n|x|f]|s|l|m]; try contradiction; cbn [whole] in Hw; cbn [as_json] in E; injection E as <-.
  - injection Hw as <-. eexists. split; reflexivity.
  - destruct b; injection Hw as <-; (eexists; split; [reflexivity|]); [apply (F 1%Z); lia|reflexivity].
  - injection Hw as <-. destruct (F (Z.of_N n) L) as [-> X]. eauto.
  - injection Hw as <-. destruct (F x L) as [-> X]. eauto.
Qed.
(** A BOOLEAN is true exactly for true, "true" and positive numbers. *)
Theorem C69_booleans_keep_their_worth : forall v r, json_wf v -> as_json w parse_f64 DBoolean v = Ok r ->
  exists b, r = JBool b /\ (b = true <-> holds v).
Proof.
  intros v r W H. destruct v as [|b|[n|z|f]|s|l|m]; cbn [as_json] in H; try discriminate.
  - injection H as <-. exists false. split; [reflexivity|]. cbn. split; [discriminate|contradiction].
  - injection H as <-. exists b. split; [reflexivity|]. cbn. tauto.
  - injection H as <-. eexists. split; [reflexivity|]. cbn [holds]. rewrite N.ltb_lt. lia.
  - injection H as <-. eexists. split; [reflexivity|]. cbn [holds]. rewrite Z.ltb_lt. cbn in W. lia.
  - injection H as <-. eexists. split; [reflexivity|]. cbn [holds]. destruct f as [s|s| |s m e]; cbn in W |- *; try discriminate W; [split; [discriminate|contradiction]|].
    destruct s; cbn; split; congruence.
  - unfold parse_bool in H. cbn [holds]. destruct (str_eqb_spec s (S_ "true")) as [E|E].
    + injection H as <-. exists true. split; [reflexivity|tauto].
    + destruct (str_eqb s (S_ "false")); [|discriminate]. injection H as <-. exists false. split; [reflexivity|]. split; [discriminate|contradiction].
Qed.
End Convert.
Example C69_example_worth : whole (JNum (Float (S754_finite true 7 (-1)))) = Some (-3)%Z /\ whole (JStr (S_ "17")) = Some 17%Z /\
  holds (JNum (Float (S754_finite false 1 (-4)))) /\ ~ holds (JNum (NegInt (-2))).
Proof. split; [reflexivity|]. split; [reflexivity|]. split; [reflexivity|]. exact (fun x => x). Qed.
