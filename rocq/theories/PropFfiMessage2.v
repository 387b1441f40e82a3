(** C121: metadata of the pact given through the C interface. *)
From Coq Require Import Ascii String List Arith NArith ZArith Lia Bool.
From Verif Require Import Base PathExp Json Text MatchingRules Matchers Headers ContentType SpecQuery Http QueryProofs Expr Generators RuleExpr
  Merge PactFile Handles FfiBody FfiMessage SpecFfiMessage.
Import ListNotations.
Open Scope N_scope.

Lemma text_iff : forall o s, text_or_empty o s <-> s = or_empty o.
Proof. intros [t|] s; unfold text_or_empty; cbn; split; try intros [H|[H E]]; try congruence; intros ->; auto. Qed.
Lemma protected_iff : forall ns, protected ns = true <-> read_only ns.
Proof.
  intro ns. unfold protected, read_only. cbn [existsb]. rewrite orb_false_r, orb_true_iff. split.
  - intros [H|H]; [left | right]; [destruct (str_eqb_spec ns (S_ "pactRust")) | destruct (str_eqb_spec ns (S_ "pactSpecification"))]; congruence.
  - intros [->| ->]; [left | right]; apply str_eqb_refl.
Qed.
Lemma held_put : forall i ns v ns' n, held ns' n (with_meta_of i (obj_insert ns v (vp_meta (in_pact i)))) =
  if str_eqb ns' ns then match v with JObj o => obj_get n o | _ => None end else held ns' n i.
Proof. intros i ns v ns' n. unfold held. cbn [with_meta_of in_pact vp_meta]. rewrite obj_insert_get. destruct (str_eqb ns' ns); reflexivity. Qed.
(** What a call leaves under a name, and what it does not touch. *)
Lemma step_puts : forall c i ns n o, puts c ns n o -> held ns n (pact_step i c) = option_map JStr o.
Proof.
  intros c i ns n o H. destruct H as [o p q ns n v T1 T2 T3 NE NR|o p q ns n v T1 T2 T3 NE|o p q ns n n' T1 T2 NE NN];
    apply text_iff in T1; apply text_iff in T2; try apply text_iff in T3; subst; cbn [pact_step].
  - unfold with_pact_metadata. destruct (or_empty o) as [|a l] eqn:E; [contradiction|]. rewrite <- E in *.
    destruct (protected (or_empty o)) eqn:P; [apply protected_iff in P; contradiction|]. cbn [fst]. rewrite held_put, str_eqb_refl.
    destruct (obj_get (or_empty o) (vp_meta (in_pact i))) as [[| | | | |m]|]; cbn [obj_get]; rewrite ?obj_insert_get, ?str_eqb_refl; reflexivity.
  - unfold with_message_pact_metadata. destruct (or_empty o) as [|a l] eqn:E; [contradiction|]. rewrite <- E in *. rewrite held_put, str_eqb_refl. cbn [obj_get]. rewrite str_eqb_refl. reflexivity.
  - unfold with_message_pact_metadata. destruct (or_empty o) as [|a l] eqn:E; [contradiction|]. rewrite <- E in *. rewrite held_put, str_eqb_refl. cbn [obj_get].
    destruct (str_eqb_spec n' (or_empty p)); [contradiction | reflexivity].
Qed.
Lemma step_keeps : forall c i ns n, (forall o, ~ puts c ns n o) -> held ns n (pact_step i c) = held ns n i.
Proof.
  intros c i ns n NP. destruct c as [o p q|o p q]; cbn [pact_step].
  - unfold with_pact_metadata. destruct (or_empty o) as [|a l] eqn:E; [reflexivity|]. rewrite <- E in *.
    destruct (protected (or_empty o)) eqn:P; [reflexivity|]. cbn [fst]. rewrite held_put. destruct (str_eqb_spec ns (or_empty o)) as [->|NE]; [|reflexivity].
    assert (NN : n <> or_empty p).
    { intros ->. apply (NP (Some (or_empty q))). apply pu_named; try (apply text_iff; reflexivity); [congruence|]. intro R. apply protected_iff in R. congruence. }
    unfold held. destruct (obj_get (or_empty o) (vp_meta (in_pact i))) as [[| | | | |m]|]; cbn [obj_get]; rewrite ?obj_insert_get;
      destruct (str_eqb_spec n (or_empty p)); try contradiction; reflexivity.
  - unfold with_message_pact_metadata. destruct (or_empty o) as [|a l] eqn:E; [reflexivity|]. rewrite <- E in *. rewrite held_put.
    destruct (str_eqb_spec ns (or_empty o)) as [->|NE]; [|reflexivity]. exfalso.
    destruct (str_eqb_spec n (or_empty p)) as [->|NN].
    + apply (NP (Some (or_empty q))). apply pu_old; try (apply text_iff; reflexivity). congruence.
    + apply (NP None). eapply pu_dropped; try (apply text_iff; reflexivity); [congruence | exact NN].
Qed.
(** After any history of calls a name in a namespace holds what the last call about it left there. *)
Theorem C121_last_call_wins : forall i earlier c later ns n o, puts c ns n o -> (forall c' o', In c' later -> ~ puts c' ns n o') ->
  held ns n (pact_calls i (earlier ++ c :: later)) = option_map JStr o.
Proof.
  intros i earlier c later ns n o P. induction later as [|c' later IH] using rev_ind; intro No; unfold pact_calls.
  - rewrite fold_left_app. cbn [fold_left]. apply step_puts, P.
  - replace (earlier ++ c :: later ++ [c']) with ((earlier ++ c :: later) ++ [c']) by (rewrite <- app_assoc; reflexivity).
    rewrite fold_left_app. cbn [fold_left]. rewrite step_keeps; [|intros o' X; apply (No c' o'); [apply in_or_app; right; left; reflexivity | exact X]].
    apply IH. intros c0 o0 I. apply No. apply in_or_app. left. exact I.
Qed.
Theorem C121_others_keep : forall i cs ns n, (forall c o, In c cs -> ~ puts c ns n o) -> held ns n (pact_calls i cs) = held ns n i.
Proof.
  intros i cs ns n. induction cs as [|c cs IH] using rev_ind; intro No; [reflexivity|]. unfold pact_calls. rewrite fold_left_app. cbn [fold_left].
  rewrite step_keeps; [apply IH; intros c0 o0 I; apply No; apply in_or_app; left; exact I|]. intros o X. apply (No c o); [apply in_or_app; right; left; reflexivity | exact X].
Qed.
(** The metadata the library writes itself is out of reach of the first call, also for a namespace that is not there; nothing but the
    metadata changes. *)
Theorem C121_read_only : forall i cs ns, read_only ns -> (forall c, In c cs -> exists o p q, c = PMeta o p q) ->
  entry ns (vp_meta (in_pact (pact_calls i cs))) = entry ns (vp_meta (in_pact i)).
Proof.
  intros i cs ns R. induction cs as [|c cs IH] using rev_ind; intro A; [reflexivity|]. unfold pact_calls. rewrite fold_left_app. cbn [fold_left].
  etransitivity; [|apply IH; intros c0 I; apply A; apply in_or_app; left; exact I]. clear IH.
  destruct (A c) as (o & p & q & ->); [apply in_or_app; right; left; reflexivity|]. cbn [pact_step]. unfold with_pact_metadata.
  destruct (or_empty o) as [|a l] eqn:E; [reflexivity|]. rewrite <- E. destruct (protected (or_empty o)) eqn:P; [reflexivity|]. cbn [fst with_meta_of in_pact vp_meta].
  rewrite !entry_get, obj_insert_get. destruct (str_eqb_spec ns (or_empty o)) as [Q|]; [|reflexivity]. exfalso. subst ns. apply protected_iff in R. congruence.
Qed.
Theorem C121_rest_stays : forall i cs, let j := pact_calls i cs in
  vp_who (in_pact j) = vp_who (in_pact i) /\ vp_ints (in_pact j) = vp_ints (in_pact i) /\ vp_plugins (in_pact j) = vp_plugins (in_pact i) /\
  in_started j = in_started i /\ in_spec j = in_spec i.
Proof.
  intros i cs. cbv zeta. induction cs as [|c cs (A & B & C & D & E)] using rev_ind; [repeat split|]. unfold pact_calls in *. rewrite fold_left_app. cbn [fold_left].
  rewrite <- A, <- B, <- C, <- D, <- E. set (j := fold_left pact_step cs i). clearbody j. clear.
  destruct c as [o p q|o p q]; cbn [pact_step]; [unfold with_pact_metadata | unfold with_message_pact_metadata]; destruct (or_empty o); try (repeat split; reflexivity).
  destruct (protected _); repeat split; reflexivity.
Qed.
(** A call says true exactly if the mock server has not started and there is a namespace that can be written. A started mock server does
    not keep the metadata from being changed. *)
Theorem C121_result : forall ns n v i,
  (snd (with_pact_metadata ns n v i) = true <-> in_started i = false /\ exists t, ns = Some t /\ t <> [] /\ ~ read_only t) /\
  (forall t, ns = Some t -> t <> [] -> ~ read_only t ->
     held t (match n with Some n => n | None => [] end) (fst (with_pact_metadata ns n v i)) = Some (JStr (match v with Some v => v | None => [] end))).
Proof.
  intros ns n v i. split.
  - unfold with_pact_metadata. destruct ns as [[|a l]|]; cbn [or_empty].
    + cbn. split; [discriminate|]. intros (_ & t & E & NE & _). injection E as <-. contradiction.
    + destruct (protected (a :: l)) eqn:P; cbn [snd].
      * split; [discriminate|]. intros (_ & t & E & _ & NR). injection E as <-. apply protected_iff in P. contradiction.
      * rewrite negb_true_iff. split; [|tauto]. intro S. split; [exact S|]. exists (a :: l). split; [reflexivity|]. split; [discriminate|]. intro R. apply protected_iff in R. congruence.
    + cbn. split; [discriminate|]. intros (_ & t & E & _). discriminate.
  - intros t -> NE NR. assert (puts (PMeta (Some t) n v) t (or_empty n) (Some (or_empty v))) as P.
    { apply pu_named; try (apply text_iff; reflexivity); assumption. }
    exact (step_puts _ i _ _ _ P).
Qed.

(** * Examples *)
Definition new_pact : inner := mkInner (mkV4P (mkWho (S_ "c") (S_ "p")) [] [] []) false 3.
Example C121_example :
  let s := fun t => Some (S_ t) in
  let j := pact_calls new_pact [PMeta (s "lib"%string) (s "name"%string) (s "a"%string); PMeta (s "lib"%string) (s "version"%string) (s "1"%string);
                                PMeta (s "pactRust"%string) (s "ffi"%string) (s "0"%string); PMeta (s "lib"%string) (s "name"%string) (s "b"%string)] in
  vp_meta (in_pact j) = [(S_ "lib", JObj [(S_ "name", JStr (S_ "b")); (S_ "version", JStr (S_ "1"))])].
Proof. vm_compute. reflexivity. Qed.
(** The older call drops the other names of the namespace and writes where the other one may not. *)
Example C121_older_call :
  let s := fun t => Some (S_ t) in
  let j := pact_calls new_pact [MMeta (s "lib"%string) (s "name"%string) (s "a"%string); MMeta (s "lib"%string) (s "version"%string) (s "1"%string);
                                MMeta (s "pactRust"%string) (s "ffi"%string) (s "0"%string)] in
  vp_meta (in_pact j) = [(S_ "lib", JObj [(S_ "version", JStr (S_ "1"))]); (S_ "pactRust", JObj [(S_ "ffi", JStr (S_ "0"))])].
Proof. vm_compute. reflexivity. Qed.
Example C121_started :
  let r := with_pact_metadata (Some (S_ "lib")) (Some (S_ "name")) None (mkInner (in_pact new_pact) true 3) in
  snd r = false /\ held (S_ "lib") (S_ "name") (fst r) = Some (JStr []).
Proof. vm_compute. auto. Qed.
