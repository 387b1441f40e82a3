(** Time expressions and expressions of both. *)
From Coq Require Import Ascii String List Arith NArith ZArith Lia Bool.
From Coq Require Import ZifyBool ZifyN ZifyNat.
From Verif Require Import Base Json Text Calendar CalendarProofs CalendarProofs2 DateExpr DateEval SpecDate DateProofs PropDate PropDate2.
Import ListNotations.
Open Scope Z_scope.
Ltac Zify.zify_post_hook ::= Z.div_mod_to_equations.

Local Opaque civil day_number month_length.
Section Eval.
Variable first last : Z.
Hypothesis sane : - 1000000 <= first /\ last <= 1000000.
Notation rep := (representable first last).

Definition proper_time (e : parsed_time) : Prop :=
  match fst e with TAm h | TPm h | TNext h => (1 <= h <= 12)%N | _ => True end /\
  Forall (fun a => (a_value a < 2 ^ 30)%N) (snd e).
Lemma at_hour_iff : forall t h t', 0 <= h < 24 -> (at_hour t h t' <-> t' = at_day (day_of t) (h * 3600000000000)).
Proof.
  intros t h t' Hh. destruct (at_day_of (day_of t) (h * 3600000000000) ltac:(unfold ns_per_day; lia)) as [D N]. unfold at_hour. split.
  - intros [A B]. apply same_instant; [rewrite D; exact A|rewrite N; exact B].
  - intros ->. auto.
Qed.
Lemma same_day_years : forall t t', day_of t' = day_of t -> in_years first last t -> in_years first last t'.
Proof. intros t t' E Y. unfold in_years, date_at in *. rewrite E. exact Y. Qed.
Lemma full_hour : forall t h, in_years first last t -> 0 <= h < 24 -> with_full_hour first last t h = Some (at_day (day_of t) (h * 3600000000000)).
Proof.
  intros t h Y Hh. unfold with_full_hour, hour_ns. replace ((0 <=? h) && (h <? 24)) with true by lia. cbv zeta.
  replace (rep (at_day (day_of t) (h * 3600000000000))) with true; [reflexivity|]. symmetry. apply rep_iff, (same_day_years t); [|exact Y].
  apply at_day_of. unfold ns_per_day. lia.
Qed.
Lemma full_hour_24 : forall t, with_full_hour first last t 24 = None.
Proof. reflexivity. Qed.
Lemma base_time_spec : forall b t t', in_years first last t -> match b with TAm h | TPm h | TNext h => (1 <= h <= 12)%N | _ => True end ->
  (base_time first last b t = t' <-> based_time b t t').
Proof.
  intros b t t' Y Hb.
  assert (forall h, 0 <= h < 24 -> (or_else (with_full_hour first last t h) t = t' <-> at_hour t h t')) as FH.
  { intros h Hh. rewrite full_hour by assumption. cbn [or_else]. rewrite at_hour_iff by exact Hh. split; congruence. }
  destruct b; cbn [base_time].
  - split; [intros ->; constructor|intro B; inversion B; reflexivity].
  - rewrite FH by lia. split; [apply bt_midnight|intro B; inversion B; assumption].
  - rewrite FH by lia. split; [apply bt_noon|intro B; inversion B; assumption].
  - rewrite FH by lia. split; [apply bt_am|intro B; inversion B; assumption].
  - destruct (N.eq_dec hour 12) as [-> | Ne].
    + change (12 + Z.of_N 12) with 24. rewrite full_hour_24. cbn [or_else]. split; [intros ->; apply bt_pm_12|intro B; inversion B; [lia|reflexivity]].
    + rewrite FH by lia. split; [apply bt_pm; lia|intro B; inversion B; subst; [assumption|contradiction]].
  - destruct (hour_of t <? 12) eqn:Q.
    + destruct (N.eq_dec hour 12) as [-> | Ne].
      * change (12 + Z.of_N 12) with 24. rewrite full_hour_24. cbn [or_else]. split; [intros ->; apply bt_next_12; lia|intro B; inversion B; subst; [lia|lia|reflexivity]].
      * rewrite FH by lia. split; [apply bt_next_pm; lia|intro B; inversion B; subst; [lia|assumption|contradiction]].
    + rewrite FH by lia. split; [apply bt_next_am; lia|intro B; inversion B; subst; [assumption|lia|lia]].
Qed.
Lemma based_time_years : forall b t t', in_years first last t -> match b with TAm h | TPm h | TNext h => (1 <= h <= 12)%N | _ => True end ->
  based_time b t t' -> in_years first last t'.
Proof.
  intros b t t' Y Hb B. inversion B; subst; try exact Y; match goal with H : at_hour _ _ _ |- _ => destruct H as [D _]; apply (same_day_years t); assumption end.
Qed.
Lemma time_adjusted_good : forall a t, (a_value a < 2 ^ 30)%N -> good first last (time_adjusted first last a t) (moved_time (a_op a) (a_type a) (a_value a) t).
Proof.
  intros [u v o] t Hv. cbn [a_op a_type a_value] in *. unfold time_adjusted. cbn [a_op a_type a_value].
  rewrite try_ok by (try exact Hv; destruct u; cbn [time_unit_ms]; lia). cbn [bind].
  replace (match o with Plus => t + Z.of_N v * time_unit_ms u * 1000000 | Minus => t - Z.of_N v * time_unit_ms u * 1000000 end) with (t + signed o v * time_unit_ns u) by (destruct o, u; cbn [signed time_unit_ms time_unit_ns]; lia).
  apply good_shifted; [reflexivity|]. intros t' M. exact M.
Qed.
(** The same for times. *)
Theorem C94_time_evaluation : forall e t t', proper_time e -> in_years first last t ->
  (eval_time first last e t = Ok t' <-> denotes_time first last e t t').
Proof.
  intros [b l] t t' [Pb P] Y. unfold eval_time, denotes_time. cbn [fst snd] in *. rewrite Forall_forall in P.
  assert (forall t, in_years first last t -> good first last (apply_all (time_adjusted first last) l t) (chain first last moved_time l t)) as C.
  { apply chain_good. intros a t0 i Y0. apply time_adjusted_good, P, i. }
  pose proof (proj1 (base_time_spec b t _ Y Pb) eq_refl) as B. pose proof (based_time_years b t _ Y Pb B) as Y0. split.
  - intro E. exists (base_time first last b t). split; [exact B|]. apply (C _ Y0), E.
  - intros (t0 & B' & Ch). apply (base_time_spec b t _ Y Pb) in B'. subst t0. apply (C _ Y0). split; [exact Ch|]. apply (chain_years _ _ _ _ _ _ _ Ch Y0).
Qed.
Theorem C94_time_never_an_error : forall e t, proper_time e -> in_years first last t -> eval_time first last e t <> Err tt.
Proof.
  intros [b l] t [Pb P] Y. unfold eval_time. cbn [fst snd] in *. rewrite Forall_forall in P.
  pose proof (proj1 (base_time_spec b t _ Y Pb) eq_refl) as B. pose proof (based_time_years b t _ Y Pb B) as Y0.
  apply (chain_good first last _ (time_adjusted first last) moved_time); [|exact Y0]. intros a t0 i _. apply time_adjusted_good, P, i.
Qed.
(** Times without adjustments stay on their day. *)
Theorem C94_base_keeps_day : forall b t, day_of (base_time first last b t) = day_of t.
Proof.
  intros b t. assert (forall h, day_of (or_else (with_full_hour first last t h) t) = day_of t) as FH.
  { intro h. unfold with_full_hour, hour_ns. destruct ((0 <=? h) && (h <? 24)) eqn:Q; [|reflexivity]. cbv zeta.
    destruct (rep (at_day (day_of t) (h * 3600000000000))); [|reflexivity]. cbn [or_else]. apply at_day_of. unfold ns_per_day. lia. }
  destruct b; cbn [base_time]; try apply FH; [reflexivity|]. destruct (hour_of t <? 12); apply FH.
Qed.
End Eval.
