(** C98, C99: a V1 to V3 pact file read back is the pact that was written. *)
From Coq Require Import Ascii String List Arith NArith ZArith Lia Bool Permutation Sorted.
From Verif Require Import Base PathExp Json Text TextProofs MatchingRules Matchers JsonCompare Headers Query QueryString ContentType Http Merge Expr Generators Base64 PactFile OldFile
  SpecQuery SpecRules SpecRulesV2 SpecGenerators SpecVerifier PropHeaders SpecPactFile SpecOldFile PropVerifier PropBroker2
  PactFileProofs PactFileProofs2 PropPactFile OldFileProofs OldFileProofs2.
Import ListNotations.
Open Scope N_scope.
Local Opaque show_N.

Lemma numbered_back : forall A (f : nat -> json -> outcome A unit) (R : A -> A -> Prop) l js,
  Forall2 (fun a j => forall index, exists a', f index j = Ok a' /\ R a a') l js ->
  forall n, exists l', collect (map (fun nj => f (fst nj) (snd nj)) (number_from n js)) = Ok l' /\ Forall2 R l l'.
Proof.
  intros A f R l js H. induction H as [|a j l js Ha _ IH]; intro n; [exists []; split; [reflexivity|constructor]|].
  cbn [number_from map collect fst snd]. destruct (Ha n) as (a' & -> & Ra). destruct (IH (S n)) as (l' & -> & Rl). exists (a' :: l'). split; [reflexivity|constructor; assumption].
Qed.

(** A pact of requests and responses, written in any version before V4 and loaded again: the interactions, in their order,
    with what that version can hold. *)
Theorem C98_file_roundtrip : forall w x semver lib v p, reads_versions semver -> v <> SV4 -> http_pact_ok w x v p ->
  exists j p', http_pact_to_json w x lib v p = Ok j /\ load_pact w x semver j = Ok (AHttp p') /\ same_http_pact w x lib v p p'.
Proof.
  intros w x semver lib v p RV NV [Fi Md].
  destruct (collect_ok _ _ (http_to_json w x v) (fun i j => forall index, exists i', http_from_json w x v index j = Ok i' /\ same_http w x v i i') (hp_ints p)) as (js & E & Rl).
  { eapply Forall_impl; [|exact Fi]. intros i Hi. destruct (http_back w x v i NV Hi) as (j & Ej & H). eauto. }
  exists (file_with lib v (hp_who p) (S_ "interactions") js (hp_meta p)).
  assert (W : http_pact_to_json w x lib v p = Ok (file_with lib v (hp_who p) (S_ "interactions") js (hp_meta p))).
  { unfold http_pact_to_json. rewrite E. destruct v; try reflexivity. congruence. }
  rewrite W. clear W E. unfold file_with.
  set (o := obj_of_list _). set (J := JObj o). try exists J.
  assert (G1 : json_get (S_ "consumer") J = Some (who_to_json (consumer (hp_who p)))) by reflexivity.
  assert (G2 : json_get (S_ "provider") J = Some (who_to_json (provider (hp_who p)))) by reflexivity.
  assert (G3 : json_get (S_ "interactions") J = Some (JArr js)) by reflexivity.
  assert (G4 : json_get (S_ "metadata") J = Some (old_metadata_to_json lib v (hp_meta p))) by reflexivity.
  assert (G5 : obj_has (S_ "messages") o = false) by reflexivity.
  destruct (old_metadata_back w lib v (hp_meta p) J Md G4) as [Sm Ns].
  pose proof (version_back semver lib v _ _ RV Sm Ns) as V.
  destruct (numbered_back _ (http_from_json w x v) (same_http w x v) _ _ Rl 0%nat) as (l' & El & Sl).
  exists (mkHP (who_read w J) l' (parse_meta_data w J) v). split; [reflexivity|]. split.
  - unfold load_pact, J at 1. fold J. rewrite V, G5.
    assert (H : http_pact_from_json w x semver J = Ok (mkHP (who_read w J) l' (parse_meta_data w J) v)).
    { unfold http_pact_from_json. rewrite V. destruct v; try congruence; rewrite G3, El; reflexivity. }
    rewrite H. cbn [bind]. destruct v; try reflexivity. congruence.
  - split; [unfold who_read; rewrite G1, G2; destruct (hp_who p); reflexivity|]. split; [exact Sl|]. split; [exact Sm|reflexivity].
Qed.

(** A pact of messages, written as V3. *)
Theorem C99_message_file_roundtrip : forall w x semver lib p, reads_versions semver -> message_file_ok w x p ->
  exists j p', message_pact_to_json w x lib SV3 p = Ok j /\ load_pact w x semver j = Ok (AMsg p') /\ same_message_file w x lib p p'.
Proof.
  intros w x semver lib p RV [Fi Md].
  destruct (collect_ok _ _ (old_message_to_json w x SV3) (fun i j => forall index, exists i', old_message_from_json w x SV3 index j = Ok i' /\ same_old_message w x i i') (mf_msgs p)) as (js & E & Rl).
  { eapply Forall_impl; [|exact Fi]. intros i Hi. destruct (old_message_back w x i Hi) as (j & Ej & H). eauto. }
  unfold message_pact_to_json. rewrite E. cbn [bind]. unfold file_with.
  set (o := obj_of_list _). set (J := JObj o). try exists J.
  assert (G1 : json_get (S_ "consumer") J = Some (who_to_json (consumer (mf_who p)))) by reflexivity.
  assert (G2 : json_get (S_ "provider") J = Some (who_to_json (provider (mf_who p)))) by reflexivity.
  assert (G3 : json_get (S_ "messages") J = Some (JArr js)) by reflexivity.
  assert (G4 : json_get (S_ "metadata") J = Some (old_metadata_to_json lib SV3 (mf_meta p))) by reflexivity.
  assert (G5 : obj_has (S_ "messages") o = true) by reflexivity.
  destruct (old_metadata_back w lib SV3 (mf_meta p) J Md G4) as [Sm Ns].
  pose proof (version_back semver lib SV3 _ _ RV Sm Ns) as V.
  destruct (numbered_back _ (old_message_from_json w x SV3) (same_old_message w x) _ _ Rl 0%nat) as (l' & El & Sl).
  exists (mkMF (who_read w J) l' (parse_meta_data w J) SV3). split; [reflexivity|]. split.
  - unfold load_pact, J at 1. fold J. rewrite V, G5. unfold message_pact_from_json. rewrite V, G3, El. reflexivity.
  - split; [unfold who_read; rewrite G1, G2; destruct (mf_who p); reflexivity|]. split; [exact Sl|]. split; [exact Sm|reflexivity].
Qed.

(** Before V3 there are no files of messages, whatever they are. *)
Theorem C99_no_older_message_files : forall w x lib v p, ~ In v [SV3; SV4] -> message_pact_to_json w x lib v p = Err tt.
Proof. intros w x lib [] p H; try reflexivity; exfalso; apply H; cbn; auto. Qed.
(** The generators of a message are written, and not read. *)
Theorem C99_generators_are_not_read : forall w x v index j m, old_message_from_json w x v index j = Ok m -> snd (om_body m) = [].
Proof.
  intros w x v index j m. unfold old_message_from_json. destruct (is_v3 v); [|discriminate]. cbv zeta.
  match goal with |- bind ?a _ = _ -> _ => destruct a; [|discriminate..] end. cbn [bind].
  match goal with |- bind ?a _ = _ -> _ => destruct a; [|discriminate..] end. cbn [bind]. intro E. injection E as <-. reflexivity.
Qed.
