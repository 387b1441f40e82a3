(** Writing and reading the parts of a V4 pact file. *)
From Coq Require Import Ascii String List Arith NArith ZArith Lia Bool Permutation Sorted.
From Verif Require Import Base PathExp Json Text TextProofs MatchingRules Matchers JsonCompare Headers Query QueryString ContentType Http Merge Expr Generators Base64 PactFile
  SpecQuery SpecRules SpecGenerators SpecVerifier SpecPactFile QueryProofs HeaderProofs2 PropQuery RulesProofs RulesProofs4 PropRules PropGenerators PropVerifier PropBroker2.
Import ListNotations.
Open Scope N_scope.
Local Opaque show_N.

(** ** Looking up what has been written *)
Lemma get_of : forall k (l : list (str * json)), json_get k (JObj (obj_of_list l)) = last_entry k l.
Proof. intros. apply of_list_get. Qed.
Lemma last_one : forall A k k' (v : A), last_entry k [(k', v)] = if str_eqb k k' then Some v else None.
Proof. reflexivity. Qed.
Lemma last_cons : forall A k k' (v : A) l, last_entry k ((k', v) :: l) =
  match last_entry k l with Some u => Some u | None => if str_eqb k k' then Some v else None end.
Proof. reflexivity. Qed.
Lemma last_optional : forall A k k' (f : A -> json) o, last_entry k (optional k' f o) = if str_eqb k k' then option_map f o else None.
Proof. intros A k k' f [v|]; cbn [optional]; [apply last_one|]. destruct (str_eqb k k'); reflexivity. Qed.
Lemma last_field : forall k name x b, last_entry k (body_field x name b) =
  if str_eqb k name then match body_to_v4_json x b with JObj m => Some (JObj m) | _ => None end else None.
Proof.
  intros. unfold body_field. destruct (body_to_v4_json x b); try (destruct (str_eqb k name); reflexivity). apply last_one.
Qed.
Lemma last_map_written : forall k name m, last_entry k (map_written name m) =
  if str_eqb k name then match m with [] => None | _ => Some (JObj (obj_of_list m)) end else None.
Proof. intros k name [|kv m]; unfold map_written; [destruct (str_eqb k name); reflexivity|apply last_one]. Qed.
Lemma last_generators : forall k g, last_entry k (generators_written g) =
  if str_eqb k (S_ "generators") then (if gens_is_empty g then None else Some (gens_to_json g)) else None.
Proof. intros k g. unfold generators_written. destruct (gens_is_empty g); [destruct (str_eqb k (S_ "generators")); reflexivity|apply last_one]. Qed.

Lemma of_list_same : forall (m : list (str * json)), distinct m -> same_map m (obj_of_list m).
Proof. intros m D k. rewrite !entry_get, of_list_get. symmetry. apply last_entry_nodup, D. Qed.

(** ** Matching rules and generators *)

Lemma rule_all_mono : forall (P Q : rule -> Prop), (forall r, P r -> Q r) -> forall r, rule_all P r -> rule_all Q r.
Proof.
  intros P Q PQ. refine (rule_ind' (fun r => rule_all P r -> rule_all Q r) _ _ _ _).
  - intro r. destruct r; try exact I; (intro A; apply ra_leaf; [exact I|apply PQ, (rule_all_here P), A]).
  - intros vs H W. inversion W as [? L|? Wh Wn| |]; subst; [contradiction|]. apply ra_arr; [apply PQ, Wh|].
    rewrite Forall_forall in *. intros v Iv. specialize (Wn v Iv). specialize (H v Iv). unfold cat_all in H. destruct v as [i c]. cbn [snd] in *.
    rewrite Forall_forall in *. intros pr Ip. specialize (Wn pr Ip). specialize (H pr Ip). destruct pr as [p rl]. cbn [snd] in *.
    rewrite Forall_forall in *. intros r Ir. apply H; [exact Ir|apply Wn, Ir].
  - intros d H W. unfold def_all in H. rewrite Forall_forall in H. inversion W as [? L| |? Wh Wn|]; subst; [contradiction|].
    apply ra_key; [apply PQ, Wh|]. intros r Ir. apply (H _ Ir). apply Wn, Ir.
  - intros d H W. unfold def_all in H. rewrite Forall_forall in H. inversion W as [? L| | |? Wh Wn]; subst; [contradiction|].
    apply ra_val; [apply PQ, Wh|]. intros r Ir. apply (H _ Ir). apply Wn, Ir.
Qed.
Lemma writable_resolved : forall w r, writable w r -> has_unresolved r = false.
Proof.
  intros w r W. apply has_unresolved_iff. revert W. apply rule_all_mono. intros [] H; cbn in *; try exact I; apply H.
Qed.
Lemma rules_back : forall w m, rules_ok w m -> exists l, rules_written m = Ok l /\
  (forall k, k <> S_ "matchingRules" -> last_entry k l = None) /\
  forall j, json_get (S_ "matchingRules") j = last_entry (S_ "matchingRules") l ->
  exists m', rules_read w j = Ok m' /\ same_collection m m'.
Proof.
  intros w m OK. unfold rules_written. destruct (mr_is_empty m) eqn:E.
  - exists []. split; [reflexivity|]. split; [reflexivity|]. intros j G. exists []. unfold rules_read. rewrite G. split; [reflexivity|].
    assert (filter has_rules m = []) as F.
    { clear -E. unfold mr_is_empty in E. rewrite forallb_forall in E. induction m as [|nc m IH]; [reflexivity|]. cbn [filter].
      unfold has_rules at 1. rewrite (E nc (or_introl eq_refl)). apply IH. intros y I. apply E. right. exact I. }
    exists []. rewrite F. split; [constructor|constructor].
  - destruct (existsb _ m) eqn:U.
    { exfalso. apply existsb_exists in U. destruct U as ([n c] & I1 & U). apply existsb_exists in U. destruct U as ([p rl] & I2 & U).
      apply existsb_exists in U. destruct U as (r & I3 & U). cbn [snd] in *. destruct OK as [_ OK]. rewrite Forall_forall in OK.
      destruct (OK _ I1) as (_ & _ & OK1). cbn [fst snd] in OK1. rewrite Forall_forall in OK1. destruct (OK1 _ I2) as (_ & W & _).
      cbn [snd] in W. rewrite Forall_forall in W. specialize (W _ I3). apply writable_resolved in W. congruence. }
    eexists. split; [reflexivity|]. split.
    + intros k N. rewrite last_one. destruct (str_eqb_spec k (S_ "matchingRules")); [contradiction|reflexivity].
    + intros j G. rewrite last_one, str_eqb_refl in G. destruct (C11_collection_roundtrip w m OK) as (m' & R & S).
      exists m'. split; [|exact S]. unfold rules_read. rewrite G, R. reflexivity.
Qed.
Lemma generators_back : forall w g j, generators_ok w g -> json_get (S_ "generators") j = last_entry (S_ "generators") (generators_written g) ->
  exists g', generators_read w j = Ok g' /\ same_generators g g'.
Proof.
  intros w g j [W C] G. rewrite last_generators, str_eqb_refl in G. unfold generators_read, generators_from_json. rewrite G.
  destruct (gens_is_empty g) eqn:E.
  - exists []. split; [reflexivity|]. intros c p y. split.
    + intros (m & I1 & I2). unfold gens_is_empty in E. rewrite forallb_forall in E. specialize (E _ I1). cbn [snd] in E. destruct m; [destruct I2|discriminate].
    + intros (m & [] & _).
  - unfold gens_to_json. destruct (round_trip w g W C) as (g' & R & S). exists g'. rewrite R. split; [reflexivity|exact S].
Qed.

(** ** Bodies *)
Lemma hint_back : forall h, hint_parse (hint_show h) = Some h.
Proof. intros []; reflexivity. Qed.
Ltac keys_decide := repeat match goal with
  | |- context [str_eqb (S_ ?a) (S_ ?b)] => let r := eval vm_compute in (str_eqb (S_ a) (S_ b)) in change (str_eqb (S_ a) (S_ b)) with r
  end; cbv iota.

Definition no_empty_type (w : world) (h : option hmap) : Prop :=
  match h with Some m => find_header w m (S_ "content-type") <> Some [] | None => True end.
Lemma type_attr : forall w x headers attrs t, obj_get (S_ "contentType") attrs = Some (JStr t) ->
  content_type_from_json w x headers attrs = Ok (parse_mime x t).
Proof. intros. unfold content_type_from_json. rewrite H. reflexivity. Qed.
Lemma from_utf8_inv : forall bs s, from_utf8 bs = Some s -> bs = utf8 s.
Proof. intros bs s H. apply (from_utf8_fuel_inv _ _ _ H). Qed.
Lemma utf8_nil : forall s, utf8 s = [] -> s = [].
Proof. intros [|c s]; [reflexivity|]. cbn [utf8 flat_map]. unfold utf8_char. destruct (c <? 128), (c <? 2048), (c <? 65536); discriminate. Qed.
Lemma json_show_nonempty : forall w j, (forall f, show_float w f <> []) -> json_show w j <> [].
Proof.
  intros w j F. destruct j as [|b|n|s|l|m]; try discriminate; [destruct b; discriminate|].
  cbn [json_show]. destruct n as [n|z|f]; cbn [show_num]; [apply show_N_nonempty| |apply F]. unfold show_Z. destruct z; [apply show_N_nonempty|apply show_N_nonempty|discriminate].
Qed.
Lemma body_reads : forall w x T b b1 j attr headers,
  (match b with
   | BPresent bytes own h => exists o, b1 = BPresent bytes o h /\ (match o with Some c => c | None => ct_default end) = T bytes own
   | _ => b1 = b
   end) ->
  (forall f, show_float w f <> []) -> no_empty_type w headers ->
  body_ok x T b -> json_get attr j = last_entry attr (body_field x attr b1) ->
  exists b', body_from_json w x j attr headers = Ok b' /\ body_back w x T b b'.
Proof.
  intros w x T b b1 j attr headers HB SF HT OK G. rewrite last_field, str_eqb_refl in G. unfold body_from_json. rewrite G. clear G.
  destruct b as [| | |bytes own h].
  - subst b1. exists BMissing. split; reflexivity.
  - subst b1. cbn [body_to_v4_json obj_get]. rewrite str_eqb_refl. exists BEmpty. split; [|reflexivity].
    unfold content_type_from_json, encoding_of, read_bytes. cbn [obj_get]. keys_decide. cbn [fst snd].
    assert (R : forall o, match o with Some ct => if is_json ct then [] else utf8 (json_to_string w (JStr [])) | None => utf8 (json_to_string w (JStr [])) end = [])
      by (intros [o|]; [destruct (is_json o); reflexivity|reflexivity]).
    destruct headers as [m|]; [|reflexivity]. cbn [no_empty_type] in HT.
    destruct (find_header w m (S_ "content-type")) as [[|v l]|]; [congruence|cbn [bind]; rewrite R; reflexivity|reflexivity].
  - subst b1. exists BMissing. split; reflexivity.
  - destruct HB as (o & -> & Eo). destruct OK as (Ne & By & Pm & Js). cbn [body_to_v4_json body_back]. rewrite Eo. set (t := T bytes own) in *. clearbody t.
    assert (W : exists c, (exists e, written_content x bytes t h = (c, e) /\ c <> JNull /\
       match e with
       | JBool false => c <> JStr [] /\ (if is_json t then exists j0, json_of_bytes x bytes = Some j0 /\ c = j0 else utf8 (json_to_string w c) = bytes)
       | _ => e = JStr (S_ "base64") /\ c = JStr (b64_encode bytes) /\ (is_json t = true -> json_of_bytes x bytes = None)
       end)).
    { unfold written_content, in_base64. destruct (is_json t) eqn:J.
      - destruct (json_of_bytes x bytes) as [j0|] eqn:P.
        + exists j0, (JBool false). destruct (Js eq_refl) as [J1 J2]. split; [reflexivity|]. split; [congruence|]. split; [congruence|]. eauto.
        + eexists _, _. split; [reflexivity|]. split; [discriminate|]. cbv iota. auto.
      - destruct (match h with Some HBinary => true | _ => false end || is_binary t).
        + eexists _, _. split; [reflexivity|]. split; [discriminate|]. cbv iota. split; [reflexivity|]. split; [reflexivity|discriminate].
        + destruct (from_utf8 bytes) as [s|] eqn:U.
          * apply from_utf8_inv in U. exists (JStr s), (JBool false). split; [reflexivity|]. split; [discriminate|]. split; [|cbn [json_to_string]; congruence].
            intro E. injection E as ->. apply Ne. exact U.
          * eexists _, _. split; [reflexivity|]. split; [discriminate|]. cbv iota. split; [reflexivity|]. split; [reflexivity|discriminate]. }
    destruct W as (c & e & -> & Cn & Ce).
    set (attrs := obj_of_list _).
    assert (A1 : obj_get (S_ "content") attrs = Some c) by (subst attrs; rewrite of_list_get, !last_entry_app, last_one, last_optional, !last_cons; keys_decide; reflexivity).
    assert (A2 : obj_get (S_ "contentType") attrs = Some (JStr (ct_show t))) by (subst attrs; rewrite of_list_get, !last_entry_app, last_one, last_optional, !last_cons; keys_decide; reflexivity).
    assert (A3 : obj_get (S_ "encoded") attrs = Some e) by (subst attrs; rewrite of_list_get, !last_entry_app, last_one, last_optional, !last_cons; keys_decide; reflexivity).
    assert (A4 : hint_of attrs = h).
    { unfold hint_of. subst attrs. rewrite of_list_get, !last_entry_app, last_one, last_optional, !last_cons. keys_decide. destruct h as [h|]; [|reflexivity].
      cbn [option_map]. rewrite hint_back. reflexivity. }
    clearbody attrs. rewrite A1, A4.
    assert (F : match c with JNull => False | _ => True end) by (destruct c; [congruence|exact I..]).
    set (X := (if is_json t then match json_of_bytes x bytes with Some j0 => utf8 (json_show w j0) | None => bytes end else bytes)).
    exists (BPresent X (Some t) h). split; [|exists X; split; reflexivity].
    assert (R : read_bytes w c (encoding_of w attrs) (Some t) = X /\ X <> []).
    { unfold encoding_of. rewrite A3. subst X. split.
    + destruct e as [|[]| | | |]; destruct Ce as [Ce1 Ce2]; try discriminate.
      * destruct (is_json t) eqn:J.
        -- destruct Ce2 as (j0 & E & ->). rewrite E. unfold read_bytes. cbn [fst snd]. rewrite J. destruct j0 as [| | |[|]| |]; try reflexivity. congruence.
        -- unfold read_bytes. cbn [fst snd]. rewrite J. exact Ce2.
      * injection Ce1 as ->. destruct Ce2 as [-> Ce2]. unfold read_bytes. cbn [fst snd].
        change (str_eqb (to_lower w (S_ "base64")) (S_ "base64")) with true. cbv iota. cbn [json_to_string]. rewrite b64_round by exact By.
        destruct (is_json t); [rewrite Ce2 by reflexivity|]; reflexivity.
    + destruct (is_json t) eqn:J; [|exact Ne]. destruct (json_of_bytes x bytes) as [j0|]; [|exact Ne]. intro E. apply utf8_nil in E. exact (json_show_nonempty w j0 SF E). }
    destruct R as [R N]. clearbody X.
    destruct c; [contradiction|..]; rewrite (type_attr w x headers attrs _ A2), Pm; cbn [bind]; rewrite R; (destruct X; [congruence|reflexivity]).
Qed.
