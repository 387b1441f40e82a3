(** Theorems about the conversion of provider state values to the declared type. *)
From Coq Require Import String List Arith NArith ZArith Lia Bool Floats.SpecFloat.
From Verif Require Import Base Json Text Expr SpecExpr FloatProofs.
Import ListNotations.
Open Scope N_scope.

Local Opaque show_N.

Section Convert.
Variable w : world.
Variable parse_f64 : str -> option spec_float.

(** C69: the value put into a JSON body is of the declared type; only a text that
    stands for an infinity or for "not a number" becomes null. *)
Theorem C69_value_has_the_declared_type : forall d v r, json_wf v ->
  as_json w parse_f64 d v = Ok r ->
  of_type d r \/
  ((d = DFloat \/ d = DDecimal) /\ r = JNull /\
   exists s f, v = JStr s /\ parse_f64 s = Some f /\ float_finite f = false).
Proof.
  assert (FL : forall v r, json_wf v -> as_json w parse_f64 DFloat v = Ok r ->
    (exists f, r = JNum (Float f)) \/
    (r = JNull /\ exists s f, v = JStr s /\ parse_f64 s = Some f /\ float_finite f = false)).
  { intros v r W H. destruct v as [|b|[n|z|f]|s|l|m]; cbn [as_json] in H; try discriminate.
    - injection H as <-. left. eexists; reflexivity.
    - injection H as <-. left. eexists; reflexivity.
    - injection H as <-. cbn in W. left. unfold json_of_f64. rewrite Z_to_float_finite; [eexists; reflexivity|].
      unfold two64 in W. lia.
    - injection H as <-. cbn in W. left. unfold json_of_f64. rewrite Z_to_float_finite; [eexists; reflexivity|].
      lia.
    - injection H as <-. cbn in W. left. unfold json_of_f64. rewrite W. eexists; reflexivity.
    - destruct (parse_f64 s) as [f|] eqn:P; cbn in H; [|discriminate]. injection H as <-. unfold json_of_f64.
      destruct (float_finite f) eqn:F; [left; eexists; reflexivity|].
      right. split; [reflexivity|]. exists s, f. repeat split; assumption. }
  intros d v r W H. destruct d.
  - left. destruct v; cbn in H; injection H as <-; eexists; reflexivity.
  - left. cbn [of_type]. destruct v as [|b|[n|z|f]|s|l|m]; cbn [as_json] in H; try discriminate.
    + injection H as <-. left; eexists; reflexivity.
    + injection H as <-. left; eexists; reflexivity.
    + injection H as <-. left; eexists; reflexivity.
    + injection H as <-. right; eexists; reflexivity.
    + injection H as <-. unfold json_of_i64. destruct (0 <=? float_to_i64 f)%Z; [left|right]; eexists; reflexivity.
    + destruct (parse_usize s) as [n|]; cbn in H; [|discriminate]. injection H as <-. left; eexists; reflexivity.
  - destruct (FL v r W H) as [A|[A B]]; [left; exact A|right; auto].
  - destruct (FL v r W H) as [A|[A B]]; [left; exact A|right; auto].
  - left. exact I.
  - left. cbn [of_type]. destruct v as [|b|[n|z|f]|s|l|m]; cbn [as_json] in H; try discriminate;
      try (injection H as <-; eexists; reflexivity).
    destruct (parse_bool s); cbn in H; [|discriminate]. injection H as <-. eexists; reflexivity.
Qed.

(** C69: a value that is of the declared type already is not changed. *)
Theorem C69_value_of_the_type_is_kept : forall d v, json_wf v -> of_type d v ->
  as_json w parse_f64 d v = Ok v.
Proof.
  intros d v W H. destruct d; cbn [of_type] in H.
  - destruct H as [s ->]. reflexivity.
  - destruct H as [[n ->]|[z ->]]; reflexivity.
  - destruct H as [f ->]. cbn. cbn in W. unfold json_of_f64. rewrite W. reflexivity.
  - destruct H as [f ->]. cbn. cbn in W. unfold json_of_f64. rewrite W. reflexivity.
  - reflexivity.
  - destruct H as [b ->]. reflexivity.
Qed.

(** What the texts of each type are. *)
Definition reads_as (d : data_type) (s : str) : bool :=
  match d with
  | DInteger => some (parse_usize s)
  | DDecimal | DFloat => some (parse_f64 s)
  | DBoolean => str_eqb s (S_ "true") || str_eqb s (S_ "false")
  | _ => true
  end.
Definition reads_as_in_text (d : data_type) (s : str) : bool :=
  match d with DInteger => some (parse_i64 s) | _ => reads_as d s end.

(** C69: converting fails exactly for arrays, objects and texts that are not of the type
    (then the example value stays); it never aborts. *)
Theorem C69_conversion_fails_exactly_when : forall d v,
  as_json w parse_f64 d v = Err tt <->
  (d <> DString /\ d <> DRaw /\ not_convertible (reads_as d) v).
Proof.
  intros d v. split.
  - intro H. destruct d; cbn [as_json] in H.
    + destruct v; discriminate.
    + split; [discriminate|]. split; [discriminate|].
      destruct v as [|b|[n|z|f]|s|l|m]; try discriminate; cbn; try exact I.
      destruct (parse_usize s); [discriminate|reflexivity].
    + split; [discriminate|]. split; [discriminate|].
      destruct v as [|b|[n|z|f]|s|l|m]; try discriminate; cbn; try exact I.
      destruct (parse_f64 s); [discriminate|reflexivity].
    + split; [discriminate|]. split; [discriminate|].
      destruct v as [|b|[n|z|f]|s|l|m]; try discriminate; cbn; try exact I.
      destruct (parse_f64 s); [discriminate|reflexivity].
    + discriminate.
    + split; [discriminate|]. split; [discriminate|].
      destruct v as [|b|[n|z|f]|s|l|m]; try discriminate; cbn -[S_]; try exact I.
      unfold parse_bool in H. destruct (str_eqb s (S_ "true")); [discriminate|].
      destruct (str_eqb s (S_ "false")); [discriminate|reflexivity].
  - intros (Ns & Nr & H). destruct d; try contradiction;
      destruct v as [|b|[n|z|f]|s|l|m]; cbn -[S_ parse_bool] in H |- *; try contradiction; try reflexivity.
    + destruct (parse_usize s); [discriminate|reflexivity].
    + destruct (parse_f64 s); [discriminate|reflexivity].
    + destruct (parse_f64 s); [discriminate|reflexivity].
    + unfold parse_bool. destruct (str_eqb s (S_ "true")); [discriminate|].
      destruct (str_eqb s (S_ "false")); [discriminate|reflexivity].
Qed.
Theorem C69_conversion_in_bodies_never_aborts : forall d v, as_json w parse_f64 d v <> Panic.
Proof.
  intros d v. destruct d, v as [|b|[n|z|f]|s|l|m]; cbn -[S_ parse_bool]; try discriminate;
    try (destruct (parse_usize s); discriminate); try (destruct (parse_f64 s); discriminate);
    try (destruct (parse_bool s); discriminate).
Qed.

(** C69: in a path, header or query parameter the same failure aborts the program. *)
Theorem C69_text_aborts_exactly_when : forall d v,
  data_value_to_string w parse_f64 d v = Panic <->
  (d <> DString /\ d <> DRaw /\ not_convertible (reads_as_in_text d) v).
Proof.
  intros d v. split.
  - intro H. destruct d; cbn [data_value_to_string] in H; try discriminate;
      (split; [discriminate|]; split; [discriminate|]);
      destruct v as [|b|[n|z|f]|s|l|m]; try discriminate; cbn -[S_]; try exact I.
    + cbn in H. destruct (parse_i64 s); [discriminate|reflexivity].
    + cbn in H. destruct (parse_f64 s); [discriminate|reflexivity].
    + cbn in H. destruct (parse_f64 s); [discriminate|reflexivity].
    + cbn -[S_ parse_bool] in H. unfold parse_bool in H. destruct (str_eqb s (S_ "true")); [discriminate|].
      destruct (str_eqb s (S_ "false")); [discriminate|reflexivity].
  - intros (Ns & Nr & H). destruct d; try contradiction;
      destruct v as [|b|[n|z|f]|s|l|m]; cbn -[S_ parse_bool parse_i64] in H |- *; try contradiction; try reflexivity.
    + destruct (parse_i64 s); [discriminate|reflexivity].
    + destruct (parse_f64 s); [discriminate|reflexivity].
    + destruct (parse_f64 s); [discriminate|reflexivity].
    + unfold parse_bool. destruct (str_eqb s (S_ "true")); [discriminate|].
      destruct (str_eqb s (S_ "false")); [discriminate|reflexivity].
Qed.

(** C69: without a declared type, or as RAW, the value is used as it is. *)
Theorem C69_no_type_keeps_the_value : forall ctx s v,
  value_from_context ctx w s = Ok v ->
  provider_state_json w parse_f64 ctx s None = Ok v /\
  provider_state_json w parse_f64 ctx s (Some DRaw) = Ok v /\
  provider_state_text w parse_f64 ctx s None = Ok (json_to_string w v).
Proof.
  intros ctx s v H. unfold provider_state_json, provider_state_text. rewrite H. repeat split.
Qed.

(** C69 (why): a negative number given as a text is accepted in a path, header or query
    parameter but not in a body. *)
Theorem C69_why_negative_texts : forall n, 0 < n -> n <= 9223372036854775808 ->
  as_json w parse_f64 DInteger (JStr (45 :: show_N n)) = Err tt.
Proof.
  intros n H L. cbn [as_json].
  assert (P : parse_usize (45 :: show_N n) = None).
  { unfold parse_usize. cbn -[show_N two64]. reflexivity. }
  rewrite P. reflexivity.
Qed.
(** C69 (why): a whole number from 2^63 on is kept in a body but written as a negative number
    in a path, header or query parameter. *)
Theorem C69_why_large_numbers : forall n, 9223372036854775808 <= n -> n < two64 ->
  as_json w parse_f64 DInteger (JNum (PosInt n)) = Ok (JNum (PosInt n)) /\
  data_value_to_string w parse_f64 DInteger (JNum (PosInt n)) = Ok (45 :: show_N (two64 - n)).
Proof.
  intros n L H. split; [reflexivity|]. cbn [data_value_to_string try_i64 display]. f_equal.
  unfold u64_to_i64. assert (F : (n <? 9223372036854775808) = false) by (apply N.ltb_ge; exact L).
  rewrite F. unfold two64 in *.
  assert (E : (Z.of_N n - 18446744073709551616 = - Z.of_N (18446744073709551616 - n))%Z) by lia.
  rewrite E. destruct (18446744073709551616 - n) as [|p] eqn:D; [lia|]. reflexivity.
Qed.
End Convert.

(** C69: the declared type survives the pact file. *)
Theorem C69_type_name_round_trip : forall d, data_type_from (data_type_to d) = d.
Proof. destruct d; reflexivity. Qed.

Example C69_example_kinds : forall w pf,
  as_json w pf DInteger (JStr (S_ "42")) = Ok (JNum (PosInt 42)) /\
  as_json w pf DBoolean (JStr (S_ "maybe")) = Err tt /\
  data_value_to_string w pf DBoolean (JStr (S_ "maybe")) = Panic /\
  as_json w pf DString (JBool true) = Ok (JStr (S_ "true")) /\
  as_json w pf DDecimal (JNum (PosInt 1)) = Ok (JNum (Float (S754_finite false 4503599627370496 (-52)))) /\
  as_json w pf DInteger (JNum (Float (S754_finite true 3 (-1)))) = Ok (JNum (NegInt (-1))).
Proof. intros. repeat split. Qed.
Example C69_example_negative : forall w pf, data_value_to_string w pf DInteger (JStr (S_ "-5")) = Ok (S_ "-5").
Proof. intros. Local Transparent show_N. reflexivity. Qed.
