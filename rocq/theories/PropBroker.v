(** C82: the results published to a Pact Broker. *)
From Coq Require Import Ascii String List Arith NArith ZArith Lia Bool Sorted.
From Verif Require Import Base PathExp Json Text Matchers Http Merge QueryString VerifierClient Verifier SpecVerifier Broker SpecBroker PropVerifier.
Import ListNotations.
Open Scope N_scope.
Local Opaque show_N.

Section Payload.
Variable describe : request_mismatch -> str.
Variable message : error_kind -> str.
Variable vv : str.

Ltac nodup := vm_compute; repeat (apply NoDup_cons; [intro; cbn in *; intuition discriminate|]); apply NoDup_nil.
Ltac members := cbn; intros; intuition (subst; auto).

Lemma mismatch_told : forall m, tells_mismatch describe m (mismatch_json describe m).
Proof.
  intro m. unfold tells_mismatch. split; [|destruct m; (split; [|split]); reflexivity].
  destruct m; eexists; (split; [reflexivity|]); (split; [nodup|]); intros ky H; vm_compute in H; vm_compute; intuition.
Qed.
Lemma error_told : forall k, tells_error message k (object [(S_ "message", JStr (message k))]).
Proof.
  intro k. split; [|reflexivity]. eexists. split; [reflexivity|]. split; [nodup|]. intros ky H. vm_compute in H. vm_compute. intuition.
Qed.

Definition triple (r : interaction_result) : entry := (ir_id r, Some (ir_interaction r), ir_result r).
Definition error_json (k : error_kind) : json := object [(S_ "message", JStr (message k))].

Lemma chunk_fold : forall g ms es d,
  fold_left (chunk_step describe message) (map triple g) (ms, es, d) =
  (ms ++ map (mismatch_json describe) (flat_map mismatches_in g), es ++ map error_json (flat_map errors_in g),
   match d with Some _ => d | None => match g with r :: _ => Some (ir_interaction r) | [] => None end end).
Proof.
  induction g as [|r g IH]; intros ms es d.
  - cbn [map fold_left flat_map]. rewrite !app_nil_r. destruct d; reflexivity.
  - cbn [map fold_left flat_map]. unfold triple at 2. unfold chunk_step at 2.
    rewrite !map_app. unfold mismatches_in at 1, errors_in at 1.
    destruct (ir_result r) as [[l i|k i]|]; rewrite IH; cbn [map app];
      rewrite ?app_nil_r, <- ?app_assoc; destruct d; reflexivity.
Qed.

Lemma told_map : forall A (tells : A -> json -> Prop) f l, (forall a, tells a (f a)) ->
  told tells l (if nonempty (map f l) then Some (JArr (map f l)) else None).
Proof.
  intros A tells f [|a l] H; [reflexivity|]. cbn [map nonempty told]. eexists. split; [reflexivity|].
  constructor; [apply H|]. induction l; constructor; auto.
Qed.

(** The object of a group: its members by name. *)
Definition group_object (id : str) (ms es : list json) (d : option str) : list (str * json) :=
  let m := obj_of_list [(S_ "interactionId", JStr id); (S_ "success", JBool (negb (nonempty ms) && negb (nonempty es)))] in
  let m := if nonempty ms then obj_insert (S_ "mismatches") (JArr ms) m else m in
  let m := if nonempty es then obj_insert (S_ "exceptions") (JArr es) m else m in
  match d with Some d => obj_insert (S_ "interactionDescription") (JStr d) m | None => m end.
Lemma group_object_spec : forall id ms es d,
  only_members ["interactionId"; "success"; "mismatches"; "exceptions"; "interactionDescription"]%string (JObj (group_object id ms es d)) /\
  member "interactionId" (JObj (group_object id ms es d)) = Some (JStr id) /\
  member "success" (JObj (group_object id ms es d)) = Some (JBool (negb (nonempty ms) && negb (nonempty es))) /\
  member "mismatches" (JObj (group_object id ms es d)) = (if nonempty ms then Some (JArr ms) else None) /\
  member "exceptions" (JObj (group_object id ms es d)) = (if nonempty es then Some (JArr es) else None) /\
  member "interactionDescription" (JObj (group_object id ms es d)) = option_map JStr d.
Proof.
  intros id ms es d. unfold group_object.
  destruct (nonempty ms), (nonempty es), d; (split; [eexists; split; [reflexivity|split; [nodup|intros ky H; vm_compute in H; vm_compute; intuition]]|]);
    repeat split; reflexivity.
Qed.

Lemma chunk_entry : forall id g, g <> [] ->
  group_entry describe message id g (chunk_json describe message (or_nothing id, map triple g)).
Proof.
  intros id g NE. unfold chunk_json. cbn [fst snd]. rewrite chunk_fold. cbn [app].
  set (ms := map (mismatch_json describe) (flat_map mismatches_in g)). set (es := map error_json (flat_map errors_in g)).
  destruct g as [|r g]; [contradiction|].
  change (group_entry describe message id (r :: g) (JObj (group_object (or_nothing id) ms es (Some (ir_interaction r))))).
  destruct (group_object_spec (or_nothing id) ms es (Some (ir_interaction r))) as [O [I [S' [M [X D]]]]].
  unfold group_entry. split; [exact O|]. split; [rewrite I; destruct id; reflexivity|]. split; [|split; [|split]].
  - rewrite S'. f_equal. f_equal. subst ms es. destruct (flat_map mismatches_in (r :: g)), (flat_map errors_in (r :: g)); reflexivity.
  - rewrite M. apply told_map, mismatch_told.
  - rewrite X. apply told_map, error_told.
  - intros r' rest H. injection H as <- <-. exact D.
Qed.

(** Groups. *)
Lemma chunks_of : forall rs, exists gs,
  chunk_by (map triple rs) = map (fun ig => (or_nothing (fst ig), map triple (snd ig))) gs /\ in_groups rs gs /\
  (forall r rs', rs = r :: rs' -> exists id g gs', gs = (id, g) :: gs' /\ same_id (ir_id r) id).
Proof.
  induction rs as [|r rs [gs [E [[C [M D]] F]]]].
  - exists []. split; [reflexivity|]. split; [|discriminate]. split; [reflexivity|]. split; [intros ? ? []|].
    intros b i gi j gj a H. destruct b; discriminate.
  - cbn [map]. cbn [chunk_by]. rewrite E. destruct gs as [|[id g] gs].
    + destruct rs as [|r' rs]; [|destruct (F r' rs eq_refl) as [? [? [? [H _]]]]; discriminate].
      exists [(ir_id r, [r])]. split; [reflexivity|]. split; [split; [reflexivity|split]|].
      * intros i g [H|[]]. injection H as <- <-. split; [discriminate|]. intros r' [<-|[]]. reflexivity.
      * intros b i gi j gj a H. destruct b as [|? [|? b]]; discriminate.
      * intros r' rs' H. injection H as <- <-. exists (ir_id r), [r], []. split; [reflexivity|]. reflexivity.
    + cbn [map fst snd]. change (entry_key (triple r)) with (or_nothing (ir_id r)).
      destruct (str_eqb_spec (or_nothing (ir_id r)) (or_nothing id)) as [K|K].
      * exists ((id, r :: g) :: gs). split; [reflexivity|]. split; [split; [|split]|].
        -- cbn [map snd concat] in C |- *. cbn [app]. f_equal. exact C.
        -- intros i g' [H|H].
           ++ injection H as <- <-. split; [discriminate|]. intros r' [<-|H]; [exact K|]. apply (M id g (or_introl eq_refl)), H.
           ++ apply M. right. exact H.
        -- intros b i gi j gj a H. destruct b as [|[bi bg] b].
           ++ injection H as <- <- H. apply (D [] id g j gj a). cbn [app]. f_equal. exact H.
           ++ injection H as <- <- H. apply (D ((id, g) :: b) i gi j gj a). cbn [app]. f_equal. exact H.
        -- intros r' rs' H. injection H as <- <-. exists id, (r :: g), gs. split; [reflexivity|exact K].
      * exists ((ir_id r, [r]) :: (id, g) :: gs). split; [reflexivity|]. split; [split; [|split]|].
        -- cbn [map snd concat app] in C |- *. f_equal. exact C.
        -- intros i g' [H|H]; [|apply M, H]. injection H as <- <-. split; [discriminate|]. intros r' [<-|[]]. reflexivity.
        -- intros b i gi j gj a H. destruct b as [|[bi bg] b].
           ++ injection H as <- <- <- <- <-. exact K.
           ++ injection H as <- <- H. apply (D b i gi j gj a), H.
        -- intros r' rs' H. injection H as <- <-. exists (ir_id r), [r], ((id, g) :: gs). split; reflexivity.
Qed.

Definition payload := results_payload describe message vv.

Definition values_of (r : test_result) : list json :=
  match r with
  | TFailed l => map (chunk_json describe message) (chunk_by l)
  | TOk ids => flat_map (fun id => match id with
                                   | Some i => [object [(S_ "interactionId", JStr i); (S_ "success", JBool true)]]
                                   | None => []
                                   end) ids
  end.
Lemma payload_results : forall rs v b me, member "testResults" (payload rs v b me) = Some (JArr (values_of (test_result_of rs))).
Proof. intros rs v b me. unfold payload, results_payload, build_payload. cbn [member]. rewrite obj_insert_get. reflexivity. Qed.

(** ** The frame of the payload *)
Theorem C82_payload : forall rs version build_url me,
  only_members ["success"; "providerApplicationVersion"; "verifiedBy"; "buildUrl"; "testResults"]%string (payload rs version build_url me) /\
  (member "success" (payload rs version build_url me) = Some (JBool true) <-> forall r, In r rs -> ir_result r = None) /\
  (member "success" (payload rs version build_url me) = Some (JBool false) <-> exists r e, In r rs /\ ir_result r = Some e) /\
  member "providerApplicationVersion" (payload rs version build_url me) = Some (JStr version) /\
  member "buildUrl" (payload rs version build_url me) = option_map JStr build_url /\
  exists by_, member "verifiedBy" (payload rs version build_url me) = Some by_ /\
    only_members ["implementation"; "version"; "clientLanguage"]%string by_ /\
    member "implementation" by_ = Some (JStr (S_ "Pact-Rust")) /\ member "version" by_ = Some (JStr vv) /\
    match me with
    | None => member "clientLanguage" by_ = None
    | Some d => exists lang, member "clientLanguage" by_ = Some lang /\
        only_members ["testFramework"; "name"; "version"]%string lang /\
        member "testFramework" lang = Some (JStr (test_framework d)) /\ member "name" lang = Some (JStr (app_name d)) /\
        member "version" lang = Some (JStr (app_version d))
    end.
Proof.
  intros rs version build_url me.
  assert (member "success" (payload rs version build_url me) = Some (JBool (to_bool (test_result_of rs)))) as S1
    by (unfold payload, results_payload, build_payload; destruct build_url, me; reflexivity).
  assert (to_bool (test_result_of rs) = forallb passed rs) as S2 by (unfold test_result_of; destruct (forallb passed rs); reflexivity).
  split; [|split; [|split; [|split; [|split]]]].
  - unfold payload, results_payload, build_payload. eexists. split; [reflexivity|].
    destruct build_url, me; (split; [nodup|intros ky H; vm_compute in H; vm_compute; intuition]).
  - rewrite S1, S2. rewrite <- (Bool.andb_true_r (forallb passed rs)). split.
    + intro H. injection H as H. rewrite Bool.andb_true_r in H. rewrite forallb_forall in H. intros r I. specialize (H r I). unfold passed in H.
      destruct (ir_result r); [discriminate|reflexivity].
    + intro H. f_equal. f_equal. rewrite Bool.andb_true_r. apply forallb_forall. intros r I. unfold passed. rewrite (H r I). reflexivity.
  - rewrite S1, S2. split.
    + intro H. injection H as H. assert (existsb (fun r => negb (passed r)) rs = true) as E.
      { clear - H. induction rs as [|r rs IH]; [discriminate|]. cbn in *. destruct (passed r); [apply IH, H|reflexivity]. }
      apply existsb_exists in E. destruct E as [r [I E]]. unfold passed in E. destruct (ir_result r) as [e|] eqn:R; [|discriminate]. exists r, e. auto.
    + intros [r [e [I R]]]. f_equal. f_equal. apply Bool.not_true_iff_false. intro H. rewrite forallb_forall in H. specialize (H r I). unfold passed in H.
      rewrite R in H. discriminate.
  - unfold payload, results_payload, build_payload. destruct build_url, me; reflexivity.
  - unfold payload, results_payload, build_payload. destruct build_url, me; reflexivity.
  - destruct me as [d|].
    + eexists. split; [unfold payload, results_payload, build_payload; destruct build_url; reflexivity|].
      split; [eexists; split; [reflexivity|split; [nodup|intros ky H; vm_compute in H; vm_compute; intuition]]|]. split; [reflexivity|]. split; [reflexivity|].
      eexists. split; [reflexivity|]. split; [eexists; split; [reflexivity|split; [nodup|intros ky H; vm_compute in H; vm_compute; intuition]]|].
      split; [|split]; reflexivity.
    + eexists. split; [unfold payload, results_payload, build_payload; destruct build_url; reflexivity|].
      split; [eexists; split; [reflexivity|split; [nodup|intros ky H; vm_compute in H; vm_compute; intuition]]|]. split; [reflexivity|]. split; reflexivity.
Qed.

(** ** All interactions passed *)
Theorem C82_all_passed : forall rs version build_url me, (forall r, In r rs -> ir_result r = None) ->
  exists js, member "testResults" (payload rs version build_url me) = Some (JArr js) /\
    Forall2 (fun id j => only_members ["interactionId"; "success"]%string j /\
                         member "interactionId" j = Some (JStr id) /\ member "success" j = Some (JBool true))
            (flat_map (fun r => match ir_id r with Some i => [i] | None => [] end) rs) js.
Proof.
  intros rs version build_url me H. eexists. split; [apply payload_results|].
  unfold test_result_of. assert (forallb passed rs = true) as ->.
  { apply forallb_forall. intros r I. unfold passed. rewrite (H r I). reflexivity. }
  cbn [values_of]. clear H. induction rs as [|r rs IH]; [constructor|]. cbn [map flat_map]. destruct (ir_id r); [|exact IH].
  cbn [app]. constructor; [|exact IH]. split; [|split; reflexivity]. eexists. split; [reflexivity|]. split; [nodup|].
  intros ky K. vm_compute in K. vm_compute. intuition.
Qed.

(** ** Some interaction failed *)
Theorem C82_some_failed : forall rs version build_url me r0 e0, In r0 rs -> ir_result r0 = Some e0 ->
  exists gs js, in_groups rs gs /\ member "testResults" (payload rs version build_url me) = Some (JArr js) /\
    Forall2 (fun ig j => group_entry describe message (fst ig) (snd ig) j) gs js.
Proof.
  intros rs version build_url me r0 e0 I R.
  destruct (chunks_of rs) as [gs [E [G _]]]. exists gs. eexists. split; [exact G|]. split; [apply payload_results|].
  unfold test_result_of. assert (forallb passed rs = false) as ->.
  { apply Bool.not_true_iff_false. intro H. rewrite forallb_forall in H. specialize (H r0 I). unfold passed in H. rewrite R in H. discriminate. }
  cbn [values_of].
  change (map (fun r => (ir_id r, Some (ir_interaction r), ir_result r)) rs) with (map triple rs). rewrite E, map_map. cbn [fst snd].
  destruct G as [_ [M _]]. clear E. induction gs as [|[id g] gs IH]; [constructor|]. cbn [map]. constructor.
  - cbn [fst snd]. apply chunk_entry. apply (M id g). left. reflexivity.
  - apply IH. intros i g' H. apply M. right. exact H.
Qed.

(** ** With different ids every interaction is reported for itself *)
Lemma groups_single : forall rs gs, in_groups rs gs -> (forall r, In r rs -> ir_id r <> None) -> NoDup (map ir_id rs) ->
  Forall2 (fun r ig => snd ig = [r] /\ same_id (ir_id r) (fst ig)) rs gs.
Proof.
  intros rs gs [C [M _]] Some_ ND. revert rs C Some_ ND. induction gs as [|[id g] gs IH]; intros rs C Some_ ND.
  - cbn in C. subst rs. constructor.
  - cbn [map snd concat] in C. subst rs. destruct (M id g (or_introl eq_refl)) as [NE SI].
    assert (forall a b, In a g -> In b g -> ir_id a = ir_id b) as EQ.
    { intros a b A B. pose proof (SI a A) as HA. pose proof (SI b B) as HB. unfold same_id in HA, HB. rewrite <- HB in HA.
      assert (ir_id a <> None) by (apply Some_, in_or_app; left; exact A). assert (ir_id b <> None) by (apply Some_, in_or_app; left; exact B).
      destruct (ir_id a), (ir_id b); congruence. }
    destruct g as [|r [|r' g]]; [contradiction| |].
    + cbn [app]. constructor.
      * split; [reflexivity|]. apply SI. left. reflexivity.
      * apply IH; [intros i h H; apply M; right; exact H|reflexivity|intros q Q; apply Some_; right; exact Q|].
        cbn in ND. inversion ND; assumption.
    + exfalso. cbn in ND. inversion ND as [|? ? NI _]. apply NI. left. apply EQ; cbn; auto.
Qed.

Theorem C82_each_interaction : forall rs version build_url me r0 e0, In r0 rs -> ir_result r0 = Some e0 ->
  (forall r, In r rs -> ir_id r <> None) -> NoDup (map ir_id rs) ->
  (forall r ms id, In r rs -> ir_result r = Some (RMismatches ms id) -> ms <> []) ->
  exists js, member "testResults" (payload rs version build_url me) = Some (JArr js) /\ Forall2 (own_entry describe message) rs js.
Proof.
  intros rs version build_url me r0 e0 I R SI ND NE.
  destruct (C82_some_failed rs version build_url me r0 e0 I R) as [gs [js [G [E F]]]]. exists js. split; [exact E|].
  pose proof (groups_single rs gs G SI ND) as S1. clear - S1 F SI NE.
  revert js F. induction S1 as [|r [id g] rs gs [E1 E2] S1 IH]; intros js F; [inversion F; constructor|].
  inversion F as [|? j ? js' F1 F2]; subst. constructor; [|apply IH; [intros q Q; apply SI; right; exact Q|intros q ms i Q; apply NE; right; exact Q|exact F2]].
  cbn [fst snd] in E1, F1, E2. subst g. destruct F1 as [_ [F1 [F3 [F4 [F5 F6]]]]]. cbn [flat_map] in F3, F4, F5. rewrite !app_nil_r in F3.
  rewrite app_nil_r in F4, F5. unfold own_entry. split; [|split; [|split; [|split; assumption]]].
  - rewrite F1. pose proof (SI r (or_introl eq_refl)) as N1. unfold same_id in E2. destruct (ir_id r) as [i|]; [|contradiction]. cbn [option_map]. f_equal. f_equal.
    symmetry. exact E2.
  - rewrite F3. f_equal. f_equal. unfold mismatches_in, errors_in. destruct (ir_result r) as [[ms i|k i]|] eqn:Q; [|reflexivity|reflexivity].
    pose proof (NE r ms i (or_introl eq_refl) Q). destruct ms; [contradiction|reflexivity].
  - apply (F6 r []). reflexivity.
Qed.
End Payload.

(** ** What the verifier publishes has no empty list of mismatches *)
Lemma verified_nonempty : forall w x cx env st i h evs r, interaction_verified w x cx env st i h evs r ->
  forall ms id, r = Some (RMismatches ms id) -> ms <> [].
Proof.
  intros w x cx env st i h evs r V.
  assert (forall defaults context h i evs r, checked w x cx env st defaults context h i evs r -> forall ms id, r = Some (RMismatches ms id) -> ms <> []) as K.
  { assert (forall i ms r, decided i ms r -> forall l id, r = Some (RMismatches l id) -> l <> []) as D.
    { intros i0 ms r0 [[_ ->]|[N1 ->]] l id E; [discriminate|]. injection E as <- _. exact N1. }
    intros defaults context h0 i0 evs0 r0 C ms id E. destruct C as [i1 v q p evs1 [a|] r1 _ _ _ A B|i1 e evs1 [a|] r1 _ _ A B|v q ps evs1 [a|] r1 _ _ A B C].
    - destruct (A a eq_refl) as [l [_ D1]]. apply (D _ _ _ D1 _ _ E).
    - rewrite (B eq_refl) in E. discriminate.
    - destruct (A a eq_refl) as [l [_ D1]]. apply (D _ _ _ D1 _ _ E).
    - rewrite (B eq_refl) in E. discriminate.
    - destruct (N.lt_ge_cases (resp_status a) 400) as [L|L].
      + destruct (A a eq_refl L) as [l [_ D1]]. apply (D _ _ _ D1 _ _ E).
      + rewrite (B a eq_refl L) in E. discriminate.
    - rewrite (C eq_refl) in E. discriminate. }
  intros ms id E. destruct V as [H|defaults answers _ _ _ _|defaults answers context evs1 r1 _ _ _ _ C _|defaults answers context evs1 r1 answers' _ _ _ _ C _ _].
  - discriminate.
  - discriminate.
  - apply (K _ _ _ _ _ _ C ms id E).
  - destruct (existsb _ answers'); [discriminate|]. apply (K _ _ _ _ _ _ C ms id E).
Qed.
Lemma turn_nonempty : forall w x cx env st h l evs rs, verified_in_turn w x cx env st h l evs rs ->
  forall ms id, In (Some (RMismatches ms id)) rs -> ms <> [].
Proof.
  intros w x cx env st h l evs rs V. induction V as [|h i l evs evs' r rs V1 V2 IH]; intros ms id; [intros []|].
  intros [E|E]; [apply (verified_nonempty _ _ _ _ _ _ _ _ _ V1 ms id E)|apply (IH ms id E)].
Qed.
(** The results of a pact that the verifier hands over for publishing, all of them with ids of their own. *)
Theorem C82_published_pact : forall describe message vv w x cx env st f publishing p h evs rs version build_url me r0 e0,
  pact_verified w x cx env st f publishing p h evs rs -> In r0 rs -> ir_result r0 = Some e0 ->
  (forall r, In r rs -> ir_id r <> None) -> NoDup (map ir_id rs) ->
  exists js, member "testResults" (payload describe message vv rs version build_url me) = Some (JArr js) /\
             Forall2 (own_entry describe message) rs js.
Proof.
  intros describe message vv w x cx env st f publishing p h evs rs version build_url me r0 e0 [kept [evs1 [_ [V _]]]] I R SI ND.
  apply (C82_each_interaction describe message vv rs version build_url me r0 e0 I R SI ND).
  intros r ms id Q E. apply (turn_nonempty _ _ _ _ _ _ _ _ _ V ms id). rewrite <- E. apply in_map, Q.
Qed.

(** ** Interactions without ids (pacts not from a broker, say) become one entry *)
Theorem C82_why_ids_needed : forall describe message vv rs version build_url me r0 e0,
  (forall r, In r rs -> ir_id r = None) -> In r0 rs -> ir_result r0 = Some e0 ->
  (forall r ms id, In r rs -> ir_result r = Some (RMismatches ms id) -> ms <> []) ->
  exists j, member "testResults" (payload describe message vv rs version build_url me) = Some (JArr [j]) /\
    member "interactionId" j = Some (JStr []) /\ member "success" j = Some (JBool false).
Proof.
  intros describe message vv rs version build_url me r0 e0 N1 I R NE.
  destruct (C82_some_failed describe message vv rs version build_url me r0 e0 I R) as [gs [js [[C [M D]] [E F]]]].
  assert (forall id g, In (id, g) gs -> same_id id None) as K.
  { intros id g G. destruct (M id g G) as [N2 S1]. destruct g as [|r g]; [contradiction|]. pose proof (S1 r (or_introl eq_refl)) as H.
    rewrite N1 in H; [symmetry; exact H|]. rewrite <- C. apply in_concat. exists (r :: g). split; [|left; reflexivity]. apply (in_map snd _ _ G). }
  destruct gs as [|[i1 g1] [|[i2 g2] gs]].
  - cbn in C. subst rs. destruct I.
  - inversion F as [|? j ? js' F1 F2]; subst. inversion F2; subst. exists j. split; [exact E|]. destruct F1 as [_ [F1 [F3 _]]]. cbn [fst snd] in F1, F3. split.
    + rewrite F1. pose proof (K i1 g1 (or_introl eq_refl)) as H. unfold same_id in H. rewrite H. reflexivity.
    + rewrite F3. cbn [map snd concat] in I. rewrite app_nil_r in I. f_equal. f_equal.
      destruct e0 as [ms id|k id].
      * assert (flat_map mismatches_in g1 <> []) as Q.
        { intro Q. pose proof (NE r0 ms id) as N2. cbn [map snd concat] in N2. rewrite app_nil_r in N2. specialize (N2 I R).
          assert (incl (mismatches_in r0) (flat_map mismatches_in g1)) as J by (intros a A; apply in_flat_map; exists r0; auto).
          unfold mismatches_in at 1 in J. rewrite R in J. destruct ms as [|m ms]; [contradiction|]. specialize (J m (or_introl eq_refl)). rewrite Q in J. destruct J. }
        destruct (flat_map mismatches_in g1); [contradiction|reflexivity].
      * assert (flat_map errors_in g1 <> []) as Q.
        { intro Q. assert (In k (flat_map errors_in g1)) as J by (apply in_flat_map; exists r0; split; [exact I|unfold errors_in; rewrite R; left; reflexivity]).
          rewrite Q in J. destruct J. }
        destruct (flat_map mismatches_in g1), (flat_map errors_in g1); try reflexivity. contradiction.
  - exfalso. apply (D [] i1 g1 i2 g2 gs eq_refl). unfold same_id. pose proof (K i1 g1 (or_introl eq_refl)) as A. pose proof (K i2 g2 (or_intror (or_introl eq_refl))) as B.
    unfold same_id in A, B. rewrite A, B. reflexivity.
Qed.

(** ** Examples *)
Definition ex_results : list interaction_result :=
  [mkIR (Some (S_ "1")) None (S_ "d1") (S_ "first") None false;
   mkIR (Some (S_ "2")) None (S_ "d2") (S_ "second") (Some (RMismatches [MMethod; MHeader (mkMM (S_ "X-A") KNoMatcher)] (Some (S_ "2")))) false;
   mkIR (Some (S_ "3")) None (S_ "d3") (S_ "third") (Some (RError KindSetup (Some (S_ "3")))) false].
Example C82_each_interaction_applies :
  exists js, member "testResults" (payload (fun _ => S_ "m") (fun _ => S_ "e") (S_ "1.0") ex_results (S_ "1") None None) = Some (JArr js) /\
             Forall2 (own_entry (fun _ => S_ "m") (fun _ => S_ "e")) ex_results js.
Proof.
  eapply (C82_each_interaction _ _ _ ex_results _ _ _ (nth 1 ex_results (mkIR None None [] [] None false))).
  - right. left. reflexivity.
  - reflexivity.
  - intros r [<-|[<-|[<-|[]]]]; discriminate.
  - repeat (apply NoDup_cons; [cbn; intuition discriminate|]). apply NoDup_nil.
  - intros r ms id [<-|[<-|[<-|[]]]] E; try discriminate. injection E as <- _. discriminate.
Qed.
