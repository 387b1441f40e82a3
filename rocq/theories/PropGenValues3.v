(** C73: values from provider states, and status codes from them. *)
From Coq Require Import String List Arith NArith ZArith Lia Bool Floats.SpecFloat.
From Coq Require Import ZifyBool ZifyN ZifyNat.
From Verif Require Import Base PathExp Json Text MatchingRules Matchers JsonCompare Expr Generators GenApply GenValues SpecExpr PropExpr.
Import ListNotations.
Open Scope N_scope.
Local Opaque show_N.

(** The value of a name: from the "providerState" entry of the context when it is an object, else from the
    context itself. *)
Definition state_value (ctx : list (str * json)) (name : str) (v : json) : Prop :=
  (exists m, obj_get (S_ "providerState") ctx = Some (JObj m) /\ obj_get name m = Some v) \/
  ((forall m, obj_get (S_ "providerState") ctx <> Some (JObj m)) /\ obj_get name ctx = Some v).
Lemma state_context_value : forall ctx name v, state_context ctx name = Some v <-> state_value ctx name v.
Proof.
  intros ctx name v. unfold state_context, state_value. split.
  - intro H. destruct (obj_get (S_ "providerState") ctx) as [[| | | | |m]|]; try (right; split; [intros m' E; discriminate|exact H]). left. eauto.
  - intros [(m & -> & H)|[N H]]; [exact H|]. destruct (obj_get (S_ "providerState") ctx) as [[| | | | |m]|]; try exact H. exfalso. eapply N. reflexivity.
Qed.

Section Props.
Variable w : world.
Variable parse_f64 : str -> option spec_float.
Variable regex_sample : rng -> str -> option str.
Variable clock : when -> option str -> option str -> option json -> option str.
Variable url_parts : str -> str -> option (option (str * option str * str)).
Variable ctx : list (str * json).

Theorem C73_provider_state_values : forall r name old v, ~ has_open name ->
  (json_value w parse_f64 regex_sample clock url_parts ctx r (GProviderState name None) old = Ok v <-> state_value ctx name v) /\
  (forall s, GenValues.text_value w parse_f64 regex_sample clock url_parts ctx r (GProviderState name None) = Ok s <->
     exists v, state_value ctx name v /\ s = json_to_string w v).
Proof.
  intros r name old v N.
  assert (P : forall v, value_from_context (state_context ctx) w name = Ok v <-> state_value ctx name v).
  { intro v'. rewrite (C68_plain_expression_is_a_name (state_context ctx) w name v' N). apply state_context_value. }
  split.
  - rewrite <- P. cbn. unfold provider_state_json. destruct (value_from_context _ w name); cbn; tauto.
  - intro s. cbn. unfold provider_state_text. destruct (value_from_context (state_context ctx) w name) as [u| |] eqn:E; cbn [bind].
    + cbn [data_value_to_string]. split; [intro H; injection H as <-; exists u; split; [apply P; reflexivity|reflexivity]|].
      intros (v' & H & ->). apply P in H. congruence.
    + split; [discriminate|]. intros (v' & H & ->). apply P in H. discriminate.
    + split; [discriminate|]. intros (v' & H & ->). apply P in H. discriminate.
Qed.

Lemma usize_truncated : forall f z, float_finite f = true -> truncated f = z -> (0 <= z < 65536)%Z -> N.min 65535 (float_to_usize f) = Z.to_N z.
Proof.
  intros [s|s| |s m e] z Fi H L; try discriminate; cbn [truncated float_to_usize] in *; [subst z; reflexivity|].
  change (2 ^ 63)%Z with 9223372036854775808%Z in H. unfold two64.
  assert (A : Z.of_N (match e with Z0 => N.pos m | Zpos p => N.pos m * 2 ^ N.pos p | Zneg p => N.pos m / 2 ^ N.pos p end) =
              (if (0 <=? e)%Z then Z.pos m * 2 ^ e else Z.pos m / 2 ^ (- e))%Z).
  { destruct e as [|p|p]; cbn [Z.leb Z.compare Z.opp].
    - cbn [Z.pow]. lia.
    - rewrite N2Z.inj_mul, N2Z.inj_pow. reflexivity.
    - rewrite N2Z.inj_div, N2Z.inj_pow. reflexivity. }
  set (v := match e with Z0 => _ | Zpos p => _ | Zneg p => _ end) in *. cbv zeta in H. rewrite <- A in H. clearbody v.
  destruct s; [lia|]. destruct (v <? 18446744073709551616) eqn:E; lia.
Qed.
(** A status code from a provider state value: the whole number it stands for, when it is one. *)
Theorem C73_status_from_state : forall r name d old v z, ~ has_open name -> state_value ctx name v -> json_wf v ->
  whole v = Some z -> (0 <= z < 65536)%Z ->
  (forall s, v = JStr s -> d = None \/ d = Some DRaw \/ d = Some DString \/ d = Some DInteger) ->
  status_value w parse_f64 ctx r (GProviderState name d) old = Ok (Z.to_N z).
Proof.
  intros r name d old v z N S_v W H L D. cbn [status_value].
  assert (E : value_from_context (state_context ctx) w name = Ok v) by (apply (C68_plain_expression_is_a_name _ w name v N), state_context_value; exact S_v).
  rewrite E. cbn [bind]. destruct v as [|b|[n|x|f]|s|l|m]; cbn [whole] in H; try discriminate; cbn [try_u16].
  - injection H as <-. reflexivity.
  - destruct b; injection H as <-; reflexivity.
  - injection H as <-. rewrite N2Z.id. rewrite N.mod_small by lia. reflexivity.
  - injection H as <-. cbn in W. lia.
  - injection H as H. rewrite (usize_truncated f z W H L). reflexivity.
  - destruct (parse_usize s) as [n|] eqn:P; [|discriminate]. injection H as <-.
    assert (U : parse_u16 s = Some n) by (unfold parse_u16; rewrite P; replace (n <? 65536) with true by lia; reflexivity).
    rewrite N2Z.id. destruct (D s eq_refl) as [->|[->|[->| ->]]]; rewrite U; reflexivity.
Qed.
(** A larger number wraps around. *)
Theorem C73_why_status_from_state : forall r name d old n, ~ has_open name -> state_value ctx name (JNum (PosInt n)) ->
  status_value w parse_f64 ctx r (GProviderState name d) old = Ok (n mod 65536).
Proof.
  intros r name d old n N S_v. cbn [status_value].
  assert (E : value_from_context (state_context ctx) w name = Ok (JNum (PosInt n))) by (apply (C68_plain_expression_is_a_name _ w name _ N), state_context_value; exact S_v).
  rewrite E. reflexivity.
Qed.
End Props.
Example C73_example_state : forall w pf,
  state_value [(S_ "providerState", JObj [(S_ "code", JNum (PosInt 404))])] (S_ "code") (JNum (PosInt 404)) /\
  status_value w pf [(S_ "providerState", JObj [(S_ "code", JNum (PosInt 404))])] (fun _ => 0) (GProviderState (S_ "code") None) 200 = Ok 404.
Proof. intros. split; [left; eexists; split; reflexivity|reflexivity]. Qed.
