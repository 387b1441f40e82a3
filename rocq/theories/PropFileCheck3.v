(** C122: the files this library writes, and examples. *)
From Coq Require Import Ascii String List Arith NArith ZArith Lia Bool.
From Verif Require Import Base PathExp Json Text MatchingRules Matchers Headers Query QueryString ContentType Http Merge Expr Generators Base64 PactFile OldFile
  FileCheck SpecFileCheck PropFileCheck PropFileCheck2 PactFileProofs PropBroker2.
From Verif Require PropPattern3 PropPactFile2.
Import ListNotations.
Open Scope N_scope.

Lemma collect_each : forall A (l : list (outcome A unit)) r, collect l = Ok r -> Forall2 (fun m a => m = Ok a) l r.
Proof.
  intros A l. induction l as [|m l IH]; intros r H; cbn in H.
  - injection H as <-. constructor.
  - destruct m as [a| |]; try discriminate. cbn [bind] in H. destruct (collect l) as [r'| |]; try discriminate. cbn [bind] in H. injection H as <-.
    constructor; [reflexivity|apply IH; reflexivity].
Qed.
Lemma state_neat : forall s, neat_state (state_to_json s).
Proof.
  intro s. right. unfold state_to_json, map_written. destruct (st_params s) as [|kv m].
  - eexists. split; [reflexivity|]. repeat (apply conj).
    + exists (JStr (st_name s)). split; [reflexivity|now eexists].
    + intros j E. discriminate.
    + intros k v [E|[]]. injection E as <- _. now left.
  - eexists. split; [reflexivity|]. repeat (apply conj).
    + exists (JStr (st_name s)). split; [reflexivity|now eexists].
    + intros j E. injection E as <-. now eexists.
    + intros k v [E|[E|[]]]; injection E as <- _; [now left|right; now left].
Qed.
Section Written.
Variable w : world.
Variable x : externals.

Lemma interaction_neat : forall v i j, In v [SV1; SV1_1; SV2; SV3] -> http_to_json w x v i = Ok j -> neat_interaction v j.
Proof.
  intros v i j Hv H. unfold http_to_json in H.
  destruct (old_request_to_json w x v (fst (h_request i)) (snd (h_request i))) as [q| |]; try discriminate. cbn [bind] in H.
  destruct (old_response_to_json w x v (fst (h_response i)) (snd (h_response i))) as [r| |]; try discriminate. cbn [bind] in H.
  assert (E : exists o, j = JObj o /\
    ((h_states i = [] /\ o = [(S_ "description", JStr (h_desc i)); (S_ "request", q); (S_ "response", r)]) \/
     (v = SV3 /\ h_states i <> [] /\ o = [(S_ "description", JStr (h_desc i)); (S_ "providerStates", JArr (map state_to_json (h_states i))); (S_ "request", q); (S_ "response", r)]) \/
     (~ newer_than_v2 v /\ exists s, o = [(S_ "description", JStr (h_desc i)); (S_ "providerState", JStr s); (S_ "request", q); (S_ "response", r)]))).
  { assert (J : JObj (obj_of_list ([(S_ "description", JStr (h_desc i)); (S_ "request", q); (S_ "response", r)] ++ states_written v (h_states i))) = j) by (injection H as <-; reflexivity).
    rewrite <- J. eexists. split; [reflexivity|]. destruct (h_states i) as [|s l]; [left; split; reflexivity|right]. cbn [states_written].
    destruct Hv as [<-|[<-|[<-|[<-|[]]]]]; cbn [is_v3]; [right|right|right|left].
    1-3: split; [intros [F|F]; discriminate|exists (st_name s); reflexivity].
    split; [reflexivity|]. split; [discriminate|reflexivity]. }
  destruct E as [o [-> E]]. exists o. split; [reflexivity|].
  destruct E as [[_ ->]|[[-> [_ ->]]|[V [s ->]]]].
  - repeat (apply conj).
    + exists (JStr (h_desc i)). split; [reflexivity|now eexists].
    + intros k z [E|[E|[E|[]]]]; injection E as <- _; cbn [map In]; tauto.
    + intros s E. discriminate.
    + intros _. split; [intros s E; discriminate|intros _; reflexivity].
  - repeat (apply conj).
    + exists (JStr (h_desc i)). split; [reflexivity|now eexists].
    + intros k z [E|[E|[E|[E|[]]]]]; injection E as <- _; cbn [map In]; tauto.
    + intros s E. injection E as <-. eexists. split; [reflexivity|]. intros a Ha. apply in_map_iff in Ha as [s [<- _]]. apply state_neat.
    + intro E. discriminate.
  - repeat (apply conj).
    + exists (JStr (h_desc i)). split; [reflexivity|now eexists].
    + intros k z [E|[E|[E|[E|[]]]]]; injection E as <- _; cbn [map In]; tauto.
    + intros t E. discriminate.
    + intros _. split.
      * intros t E. injection E as <-. split; [exact V|]. left. now eexists.
      * intro E. discriminate.
Qed.
Lemma who_neat : forall n, neat_participant (who_to_json n).
Proof.
  intro n. eexists. split; [reflexivity|]. split.
  - exists (JStr n). split; [reflexivity|now eexists].
  - intros k z [E|[]]. injection E as <- _. now left.
Qed.
Definition old_name_there (md : old_metadata) : bool := existsb (fun kv => str_eqb (fst kv) (S_ "pactSpecificationVersion")) md.
Lemma of_list_has : forall A k (l : list (str * A)), obj_has k (obj_of_list l) = existsb (fun kv => str_eqb k (fst kv)) l.
Proof.
  intros A k l. unfold obj_of_list.
  assert (G : forall l m, obj_has k (fold_left (fun m kv => obj_insert (fst kv) (snd kv) m) l m) = obj_has k m || existsb (fun kv : str * A => str_eqb k (fst kv)) l).
  { clear l. induction l as [|[k' v] l IH]; intro m; cbn [fold_left existsb fst snd]; [now rewrite orb_false_r|].
    rewrite IH. unfold obj_has at 1. rewrite obj_insert_get. fold (obj_has k m). unfold obj_has.
    destruct (str_eqb k k'); [now rewrite orb_true_r|reflexivity]. }
  apply G.
Qed.
Lemma insert_has : forall A k k' (v : A) m, str_eqb k k' = false -> obj_has k (obj_insert k' v m) = obj_has k m.
Proof. intros A k k' v m H. unfold obj_has. rewrite obj_insert_get, H. reflexivity. Qed.
Lemma metadata_has : forall lib v md, exists o, old_metadata_to_json lib v md = JObj o /\
  obj_get (S_ "pactSpecification") o = Some (JObj [(S_ "version", JStr (version_str v))]) /\
  obj_has (S_ "pactSpecificationVersion") o = old_name_there md.
Proof.
  intros lib v md. unfold old_metadata_to_json.
  set (o := obj_of_list (map (fun kv => (metadata_key (fst kv), texts_to_json (snd kv))) md)).
  set (o1 := obj_insert (S_ "pactSpecification") _ o).
  assert (G1 : obj_get (S_ "pactSpecification") o1 = Some (JObj [(S_ "version", JStr (version_str v))])) by (unfold o1; rewrite obj_insert_get; reflexivity).
  assert (G2 : obj_has (S_ "pactSpecificationVersion") o1 = old_name_there md).
  { unfold o1. rewrite insert_has by reflexivity. unfold o, old_name_there. rewrite of_list_has. clear.
    induction md as [|[k m] md IH]; [reflexivity|]. cbn [map existsb fst]. rewrite IH. f_equal. unfold metadata_key.
    destruct (str_eqb_spec k (S_ "pact-specification")) as [->|]; [reflexivity|]. destruct (str_eqb_spec k (S_ "pact-rust")) as [->|]; [reflexivity|].
    destruct (str_eqb_spec k (S_ "pactSpecificationVersion")) as [E|E]; destruct (str_eqb_spec (S_ "pactSpecificationVersion") k) as [F|F]; congruence. }
  assert (H : forall m, obj_get (S_ "pactSpecification") (obj_insert (S_ "pactRust") (JObj m) o1) = Some (JObj [(S_ "version", JStr (version_str v))]) /\
                        obj_has (S_ "pactSpecificationVersion") (obj_insert (S_ "pactRust") (JObj m) o1) = old_name_there md).
  { intro m. rewrite insert_has by reflexivity. rewrite obj_insert_get. split; [exact G1|exact G2]. }
  destruct (obj_get (S_ "pactRust") o1) as [[| | | | |m]|]; eexists; (split; [reflexivity|]); try (split; [exact G1|exact G2]); apply H.
Qed.

Variable semver : str -> option (N * N).
(** The file of a pact in version 1 to 3 has no error, strict or not: what is said is that it has no interactions, or that a former
    name for the version is still in its metadata. [known]: the parser of versions knows those this library writes. *)
Theorem C122_written : forall lib v p j strict,
  In v [SV1; SV1_1; SV2; SV3] -> (forall v, In v [SV1; SV1_1; SV2; SV3] -> exists n, semver (version_str v) = Some n /\ In n [(1, 0); (1, 1); (2, 0); (3, 0)]) ->
  http_pact_to_json w x lib v p = Ok j ->
  verify_pact semver j strict v =
    (match hp_ints p with [] => [mkFinding (S_ "/interactions") LWarning (S_ "Interactions is empty")] | _ => [] end) ++
    (if existsb (fun kv => str_eqb (fst kv) (S_ "pactSpecificationVersion")) (hp_meta p)
     then [mkFinding (S_ "/metadata") LWarning (S_ "'pactSpecificationVersion' is deprecated, use 'pactSpecification/version' instead")] else []).
Proof.
  intros lib v p j strict Hv known H.
  assert (H' : bind (collect (map (http_to_json w x v) (hp_ints p))) (fun l => Ok (file_with lib v (hp_who p) (S_ "interactions") l (hp_meta p))) = Ok j).
  { destruct Hv as [<-|[<-|[<-|[<-|[]]]]]; exact H. }
  clear H. destruct (collect (map (http_to_json w x v) (hp_ints p))) as [l| |] eqn:C; try discriminate. cbn [bind] in H'.
  assert (J : file_with lib v (hp_who p) (S_ "interactions") l (hp_meta p) = j) by (injection H' as <-; reflexivity). clear H'. subst j.
  apply collect_each in C.
  assert (Q : file_with lib v (hp_who p) (S_ "interactions") l (hp_meta p) =
    JObj [(S_ "consumer", who_to_json (consumer (hp_who p))); (S_ "interactions", JArr l);
          (S_ "metadata", old_metadata_to_json lib v (hp_meta p)); (S_ "provider", who_to_json (provider (hp_who p)))]) by reflexivity.
  rewrite Q. clear Q. set (md := old_metadata_to_json lib v (hp_meta p)). set (c := who_to_json (consumer (hp_who p))). set (q := who_to_json (provider (hp_who p))).
  unfold verify_pact.
  assert (P1 : verify_participant (S_ "/consumer") c strict = []) by (apply neat_participant_iff, who_neat).
  assert (P2 : verify_participant (S_ "/provider") q strict = []) by (apply neat_participant_iff, who_neat).
  assert (E1 : obj_get (S_ "consumer") [(S_ "consumer", c); (S_ "interactions", JArr l); (S_ "metadata", md); (S_ "provider", q)] = Some c) by reflexivity.
  assert (E2 : obj_get (S_ "provider") [(S_ "consumer", c); (S_ "interactions", JArr l); (S_ "metadata", md); (S_ "provider", q)] = Some q) by reflexivity.
  assert (E3 : obj_get (S_ "interactions") [(S_ "consumer", c); (S_ "interactions", JArr l); (S_ "metadata", md); (S_ "provider", q)] = Some (JArr l)) by reflexivity.
  assert (E4 : obj_get (S_ "metadata") [(S_ "consumer", c); (S_ "interactions", JArr l); (S_ "metadata", md); (S_ "provider", q)] = Some md) by reflexivity.
  rewrite E1, E2, E3, E4, P1, P2. clear E1 E2 E3 E4 P1 P2. cbn [app].
  assert (U : unknown [S_ "consumer"; S_ "provider"; S_ "interactions"; S_ "metadata"]
     (fun k => mkFinding (S_ "/" ++ k) (by_strict strict) (S_ "Unexpected attribute '" ++ k ++ S_ "'"))
     [(S_ "consumer", c); (S_ "interactions", JArr l); (S_ "metadata", md); (S_ "provider", q)] = []) by reflexivity.
  rewrite U, app_nil_r. clear U. f_equal.
  - inversion C as [|m i ms is Hi His]; subst; [rewrite (map_eq_nil _ _ (eq_sym H)); reflexivity|].
    destruct (hp_ints p) as [|h hs]; [discriminate|]. rewrite (each_nothing _ _ (neat_interaction v)) by (intros; apply neat_interaction_iff).
    intros a Ha. clear -C Ha Hv.
    assert (G : forall hs l, Forall2 (fun m a => m = Ok a) (map (http_to_json w x v) hs) l -> forall a, In a l -> neat_interaction v a).
    { clear -Hv. induction hs as [|h hs IH]; intros l F a Ha; cbn [map] in F; inversion F; subst; [destruct Ha|].
      destruct Ha as [<-|Ha]; [eapply interaction_neat; eassumption|eapply IH; eassumption]. }
    exact (G _ _ C a Ha).
  - destruct (metadata_has lib v (hp_meta p)) as [o [E [G1 G2]]]. unfold md. rewrite E. cbn [verify_metadata]. rewrite G1, G2. cbn [app].
    assert (V : verify_specification semver (JObj [(S_ "version", JStr (version_str v))]) = []).
    { apply neat_specification_iff. eexists. split; [reflexivity|]. eexists. split; [reflexivity|].
      destruct (known v Hv) as [n [Hn Hin]]. exists (version_str v), n. split; [reflexivity|]. split; [exact Hn|].
      destruct Hin as [<-|[<-|[<-|[<-|[]]]]]; cbn; tauto. }
    rewrite V, app_nil_r. reflexivity.
Qed.
End Written.

(** ** Examples *)
Definition versions (s : str) : option (N * N) :=
  if str_eqb s (S_ "1.0.0") then Some (1, 0) else if str_eqb s (S_ "1.1.0") then Some (1, 1) else if str_eqb s (S_ "2.0.0") then Some (2, 0)
  else if str_eqb s (S_ "3.0.0") then Some (3, 0) else if str_eqb s (S_ "9.1") then Some (9, 1) else None.
Example versions_known : forall v, In v [SV1; SV1_1; SV2; SV3] -> exists n, versions (version_str v) = Some n /\ In n [(1, 0); (1, 1); (2, 0); (3, 0)].
Proof. intros v [<-|[<-|[<-|[<-|[]]]]]; eexists; (split; [vm_compute; reflexivity|]); cbn; tauto. Qed.
Definition neat_file : json := JObj
  [(S_ "consumer", JObj [(S_ "name", JStr (S_ "web"))]);
   (S_ "interactions", JArr [JObj [(S_ "description", JStr (S_ "a call"));
      (S_ "providerStates", JArr [JObj [(S_ "name", JStr (S_ "users")); (S_ "params", JObj [(S_ "n", JNum (PosInt 2))])]; JStr (S_ "day")]);
      (S_ "request", JObj []); (S_ "response", JObj [])]]);
   (S_ "metadata", JObj [(S_ "pactSpecification", JObj [(S_ "version", JStr (S_ "3.0.0"))])]);
   (S_ "provider", JObj [(S_ "name", JStr (S_ "users"))])].
Example C122_example_neat : neat versions SV3 neat_file /\ verify_pact versions neat_file true SV3 = [].
Proof. assert (E : verify_pact versions neat_file true SV3 = []) by (vm_compute; reflexivity). split; [apply (C122_neat versions neat_file true), E|exact E]. Qed.
(** Much is wrong here: a name that is not a text (the message gives the type of the object that has it), one that is missing, states
    under an old name, an attribute of later versions, a version that is not known. *)
Definition odd_file : json := JObj
  [(S_ "consumer", JObj [(S_ "id", JNull); (S_ "name", JNum (PosInt 1))]);
   (S_ "interactions", JArr [JObj [(S_ "description", JStr (S_ "a call")); (S_ "key", JNull); (S_ "providerState", JNum (PosInt 1))]; JNull;
                             JObj [(S_ "provider_state", JStr (S_ "day"))]]);
   (S_ "metadata", JObj [(S_ "pact-specification", JObj [(S_ "version", JStr (S_ "9.1"))])]);
   (S_ "provider", JObj [])].
Example C122_example_odd : verify_pact versions odd_file false SV3 =
  [mkFinding (S_ "/consumer/name") LError (S_ "Must be a String, got Object");
   mkFinding (S_ "/consumer") LWarning (S_ "Unknown attribute 'id'");
   mkFinding (S_ "/provider/name") LWarning (S_ "Missing name");
   mkFinding (S_ "/interactions/0") LWarning (S_ "'providerState' is deprecated, use 'providerStates' instead");
   mkFinding (S_ "/interactions/0/providerStates/0") LError (S_ "Must be a String or Object, got Number");
   mkFinding (S_ "/interactions/0") LWarning (S_ "Unexpected attribute 'key'");
   mkFinding (S_ "/interactions/1") LError (S_ "Must be an Object, got Null");
   mkFinding (S_ "/interactions/2") LWarning (S_ "Missing description");
   mkFinding (S_ "/interactions/2") LWarning (S_ "'provider_state' is deprecated, use 'providerStates' instead");
   mkFinding (S_ "/metadata") LWarning (S_ "'pact-specification' is deprecated, use 'pactSpecification' instead");
   mkFinding (S_ "/metadata/pactSpecification/version") LError (S_ "'9.1' is not a valid Pact specification version")].
Proof. vm_compute. reflexivity. Qed.
(** A file with warnings only can be used, and cannot when the check is strict. *)
Definition bare_file : json := JObj [(S_ "note", JNull)].
Example C122_example_bare : usable versions false bare_file /\ ~ usable versions true bare_file /\ ~ neat versions SV1 bare_file.
Proof.
  repeat (apply conj).
  - apply (C122_usable versions bare_file false SV1). intros f Hf. vm_compute in Hf.
    repeat match goal with H : _ \/ _ |- _ => destruct H | H : False |- _ => destruct H end; subst; discriminate.
  - intro H. apply (C122_usable versions bare_file true SV1) with (f := mkFinding (S_ "/consumer") LError (S_ "Missing consumer")) in H; [now apply H|].
    vm_compute. now left.
  - intro H. apply (C122_neat versions bare_file true SV1) in H. vm_compute in H. discriminate.
Qed.
(** Interactions that are not an array: the message speaks of an object and names the type of the document. *)
Example C122_example_interactions : verify_pact versions (JObj [(S_ "consumer", who_to_json (S_ "a")); (S_ "interactions", JNull); (S_ "provider", who_to_json (S_ "b"))]) true SV2
  = [mkFinding (S_ "/interactions") LError (S_ "Must be an Object, got Object")].
Proof. vm_compute. reflexivity. Qed.
Definition small_pact : http_pact := mkHP (mkWho (S_ "web") (S_ "users"))
  [mkHI None (S_ "a call") [mkState (S_ "day") []] request_default response_default;
   mkHI (Some (S_ "7")) (S_ "another") [mkState (S_ "a") [(S_ "n", JNull)]; mkState (S_ "b") []] request_default response_default]
  [(S_ "pact-specification", []); (S_ "pactSpecificationVersion", [])] SV3.
Example C122_example_written : forall v, In v [SV1; SV1_1; SV2; SV3] ->
  exists j, http_pact_to_json PropPattern3.digits_world PropPactFile2.file_ext (S_ "1.0") v small_pact = Ok j /\
  verify_pact versions j true v =
    [mkFinding (S_ "/metadata") LWarning (S_ "'pactSpecificationVersion' is deprecated, use 'pactSpecification/version' instead")].
Proof. intros v [<-|[<-|[<-|[<-|[]]]]]; eexists; (split; [vm_compute; reflexivity|vm_compute; reflexivity]). Qed.
