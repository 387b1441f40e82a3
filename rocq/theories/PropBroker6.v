(** C84, C85: what is asked for, how the list of pacts is read, examples. *)
From Coq Require Import Ascii String List Arith NArith ZArith Lia Bool Sorted ZifyBool ZifyN ZifyNat.
From Verif Require Import Base PathExp Json Text TextProofs MatchingRules Matchers ContentType Http Merge QueryString VerifierClient Verifier SpecVerifier Broker SpecBroker PropVerifier PropVerifierClient PropBroker2 PropBroker3 PropBroker4 PropBroker5.
Import ListNotations.
Open Scope N_scope.
Local Opaque show_N.

(** ** The selection *)
Lemma member_object : forall k l, member k (object l) = last_entry (S_ k) l.
Proof. intros. unfold object. cbn [member]. apply of_list_get. Qed.
Definition given {A} (f : A -> json) (o : option A) : option json := match o with Some a => Some (f a) | None => None end.
Theorem C84_selector : forall s k, member k (selector_json s) =
  if String.eqb k "consumer" then given JStr (sel_consumer s) else if String.eqb k "tag" then given JStr (sel_tag s)
  else if String.eqb k "fallbackTag" then given JStr (sel_fallback_tag s) else if String.eqb k "latest" then given JBool (sel_latest s)
  else if String.eqb k "deployedOrReleased" then given JBool (sel_deployed_or_released s) else if String.eqb k "deployed" then given JBool (sel_deployed s)
  else if String.eqb k "released" then given JBool (sel_released s) else if String.eqb k "environment" then given JStr (sel_environment s)
  else if String.eqb k "mainBranch" then given JBool (sel_main_branch s) else if String.eqb k "branch" then given JStr (sel_branch s)
  else if String.eqb k "matchingBranch" then given JBool (sel_matching_branch s) else if String.eqb k "fallbackBranch" then given JStr (sel_fallback_branch s)
  else None.
Proof.
  intros [a1 a2 a3 a4 a5 a6 a7 a8 a9 a10 a11 a12] k. unfold selector_json. rewrite member_object. cbn [sel_consumer sel_tag sel_fallback_tag sel_latest sel_deployed_or_released sel_deployed sel_released sel_environment sel_main_branch sel_branch sel_matching_branch sel_fallback_branch].
  assert (forall a b, S_ a = S_ b -> a = b) as INJ.
  { clear. induction a as [|c a IH]; destruct b as [|c' b]; intro H; try reflexivity; try discriminate. cbn in H. injection H as H1 H2. f_equal; [|apply IH, H2].
    apply (f_equal ascii_of_N) in H1. rewrite !ascii_N_embedding in H1. exact H1. }
  assert (forall A (f : A -> json) n (o : option A), last_entry (S_ k) (if_set (S_ n) f o) = if String.eqb k n then given f o else None) as ONE.
  { intros A f n [v|]; cbn [if_set last_entry fst snd given]; [|destruct (String.eqb k n); reflexivity].
    destruct (str_eqb_spec (S_ k) (S_ n)) as [E|N1].
    - apply INJ in E. subst n. rewrite String.eqb_refl. reflexivity.
    - destruct (String.eqb_spec k n) as [->|_]; [contradiction|reflexivity]. }
  rewrite !last_entry_app, !ONE.
  repeat match goal with |- context [String.eqb k ?n] => destruct (String.eqb_spec k n) as [->|?] end; try reflexivity;
    cbn [String.eqb Ascii.eqb Bool.eqb]; repeat match goal with |- context [given ?f ?o] => destruct o; cbn [given] end; reflexivity.
Qed.
Theorem C84_selection : forall pending since tags branch selectors,
  let j := selection_json pending since tags branch selectors in
  only_members ["providerVersionTags"; "includePendingStatus"; "includeWipPactsSince"; "consumerVersionSelectors"; "providerVersionBranch"]%string j /\
  member "includePendingStatus" j = Some (JBool pending) /\
  member "consumerVersionSelectors" j = Some (JArr (map selector_json selectors)) /\
  member "providerVersionTags" j = match tags with [] => None | _ => Some (JArr (map JStr tags)) end /\
  member "providerVersionBranch" j = option_map JStr branch /\
  member "includeWipPactsSince" j = option_map JStr since.
Proof.
  intros pending since tags branch selectors j. subst j. unfold selection_json. split.
  - eexists. split; [reflexivity|].
    set (v1 := JArr (map JStr tags)). set (v2 := JArr (map selector_json selectors)). clearbody v2.
    assert (forall l : list json, (exists a b, l = a :: b) \/ l = []) as _ by (intros []; eauto).
    destruct tags; clearbody v1; destruct since, branch; (split; [vm_compute; repeat (apply NoDup_cons; [intro; cbn in *; intuition discriminate|]); apply NoDup_nil|intros ky H; vm_compute in H; vm_compute; intuition]).
  - rewrite !member_object. destruct tags, since, branch; repeat split; reflexivity.
Qed.

(** ** The list of pacts *)
Lemma mapped : forall A B (f : A -> option B) l l', Forall2 (fun a b => f a = Some b) l l' -> all_some (map f l) = Some l'.
Proof. intros A B f l l' H. induction H as [|a b l l' E H IH]; [reflexivity|]. cbn [map all_some]. rewrite E, IH. reflexivity. Qed.
Lemma text_map_read : forall j m, text_map j m -> de_map de_str j = Some m.
Proof.
  intros j m [o [-> F]]. cbn [de_map]. apply mapped. eapply Forall2_impl_in; [|exact F] || (induction F as [|kv kv' o m [E1 E2] F IH]; constructor; [|exact IH]; rewrite E2; cbn; destruct kv, kv'; cbn in *; subst; reflexivity).
Qed.
Lemma properties_de : forall o p, properties_read o p ->
  option_map (fun v => match v with Some p => p | None => mkProps false [] end) (de_default (de_option de_properties) None o) = Some p.
Proof.
  intros o p H. destruct o as [[| | | | |m]|]; cbn [properties_read] in H; try contradiction; try (subst p; reflexivity).
  destruct H as [PN [ns [N1 F]]]. cbn [de_default de_option]. unfold de_properties, struct_fields. cbn [map]. rewrite N1.
  assert (de_list (de_map de_str) (JArr ns) = Some (pr_notices p)) as ->.
  { cbn [de_list]. apply mapped. clear - F. induction F as [|a b l l' E F IH]; constructor; [apply text_map_read, E|exact IH]. }
  destruct p as [pp pn]. cbn [pr_pending pr_notices] in *. destruct PN as [->|[-> ->]]; reflexivity.
Qed.
Lemma plain_link_de : forall j l, plain_link j l -> de_link j = Some l.
Proof.
  intros j [n h t ti] [m [-> [N1 [H [T TI]]]]]. cbn [l_name l_href l_templated l_title] in *. unfold de_link, struct_fields. cbn [map].
  assert (de_default de_str (S_ "link") (obj_get (S_ "name") m) = Some n) as -> by (destruct N1 as [->|[-> ->]]; reflexivity).
  assert (forall o t, text_or_nothing o t -> de_default (de_option de_str) None o = Some t) as K.
  { intros [[| | |s| |]|] t0 Q; cbn in Q; try contradiction; subst; reflexivity. }
  rewrite (K _ _ H), (K _ _ TI). assert (de_default de_bool false (obj_get (S_ "templated") m) = Some t) as -> by (destruct T as [->|[-> ->]]; reflexivity). reflexivity.
Qed.
(** Every listed pact is taken, in order, with its own link and properties. *)
Theorem C84_listed : forall doc emb ps lps, member "_embedded" doc = Some emb -> member "pacts" emb = Some (JArr ps) ->
  ps <> [] -> Forall2 pact_listed ps lps -> pact_links doc = Ok lps.
Proof.
  intros doc emb ps lps E1 E2 NE F. unfold pact_links.
  assert (exists pes, de_list de_pact (JArr ps) = Some pes /\ Forall2 (fun pe lp => obj_get (S_ "self") (pe_links pe) = Some (fst lp) /\ pe_props pe = snd lp) pes lps) as [pes [D G]].
  { clear - F. cbn [de_list]. induction F as [|j lp ps lps PL F IH]; [exists []; split; [reflexivity|constructor]|]. destruct IH as [pes [D G]].
    destruct PL as [m [short [ls [ls' [-> [S1 [L1 [FL [SE PR]]]]]]]]].
    assert (de_map de_link (JObj ls) = Some ls') as DL.
    { cbn [de_map]. apply mapped. clear - FL. induction FL as [|kv kv' o m [E1 E2] F IH]; constructor; [|exact IH]. apply plain_link_de in E2. rewrite E2. destruct kv, kv'; cbn in *; subst; reflexivity. }
    apply properties_de in PR. exists (mkPE short ls' (snd lp) :: pes). split; [|constructor; [split; [exact SE|reflexivity]|exact G]].
    cbn [map all_some]. rewrite D. unfold de_pact, struct_fields. cbn [map]. rewrite S1, L1, DL. cbn [de_str].
    destruct (de_default (de_option de_properties) None _) as [v|]; [|discriminate]. cbn [option_map] in PR. injection PR as PR. rewrite PR. reflexivity. }
  assert (de_response doc = Some pes) as ->.
  { unfold de_response, struct_fields. destruct doc as [| | | | |m]; try discriminate. cbn [member map] in *. rewrite E1. destruct emb as [| | | | |m']; try discriminate. cbn [member map] in *. rewrite E2. exact D. }
  destruct pes as [|pe pes]; [inversion G; subst; inversion F; subst; contradiction|].
  rewrite (mapped _ _ _ _ lps); [reflexivity|]. clear - G. induction G as [|pe' lp l l' [E1 E2] G IH]; constructor; [|exact IH]. rewrite E1. cbn [option_map]. rewrite E2. destruct lp; reflexivity.
Qed.
(** Why: a list with one pact whose properties have no notices counts as an empty list. *)
Theorem C84_why_notices : forall pre post m p,
  obj_get (S_ "verificationProperties") m = Some (JObj p) -> obj_get (S_ "notices") p = None ->
  pact_links (JObj [(S_ "_embedded", JObj [(S_ "pacts", JArr (pre ++ JObj m :: post))])]) = Err BNotFound.
Proof.
  intros pre post m p V N1. unfold pact_links.
  assert (de_pact (JObj m) = None) as D.
  { unfold de_pact, struct_fields. cbn [map]. rewrite V. cbn [de_default de_option]. unfold de_properties, struct_fields. cbn [map]. rewrite N1. cbn [option_map].
    destruct (obj_get (S_ "shortDescription") m) as [s|]; [|reflexivity]. destruct (obj_get (S_ "_links") m) as [l|]; [|reflexivity]. destruct (de_str s); [|reflexivity]. destruct (de_map de_link l); reflexivity. }
  assert (de_list de_pact (JArr (pre ++ JObj m :: post)) = None) as L.
  { cbn [de_list]. rewrite map_app. cbn [map]. rewrite D. clear. induction pre as [|a pre IH]; [reflexivity|]. cbn [map app all_some]. rewrite IH. destruct (de_pact a); reflexivity. }
  unfold de_response, struct_fields. change (map (fun k => obj_get k [(S_ "_embedded", JObj [(S_ "pacts", JArr (pre ++ JObj m :: post))])]) [S_ "_embedded"]) with [Some (JObj [(S_ "pacts", JArr (pre ++ JObj m :: post))])].
  cbv beta iota. change (map (fun k => obj_get k [(S_ "pacts", JArr (pre ++ JObj m :: post))]) [S_ "pacts"]) with [Some (JArr (pre ++ JObj m :: post))]. cbv beta iota. rewrite L. reflexivity.
Qed.

(** ** The path of the broker *)
(** On a broker at the root of its host a path is joined to its URL; the empty path is the URL itself. *)
Theorem C84_resolve : forall u broker_url base path, u_parse u broker_url = Some base ->
  (path = [] -> resolve_path u broker_url path = Ok base) /\
  (path <> [] -> u_path u base = [] \/ u_path u base = S_ "/" -> resolve_path u broker_url path = match u_join u base path with Some t => Ok t | None => Err BUrl end) /\
  (path <> [] -> u_path u base <> [] -> u_path u base <> S_ "/" ->
     ((exists r, path = u_path u base ++ r) -> resolve_path u broker_url path = match u_join u (u_set_path u base (S_ "/")) path with Some t => Ok t | None => Err BUrl end) /\
     (~ (exists r, path = u_path u base ++ r) -> (exists r, path = S_ "/" ++ r) -> resolve_path u broker_url path = Ok (u_set_path u base path)) /\
     (~ (exists r, path = u_path u base ++ r) -> ~ (exists r, path = S_ "/" ++ r) ->
        resolve_path u broker_url path = match u_join u (u_set_path u base (u_path u base ++ S_ "/")) path with Some t => Ok t | None => Err BUrl end)).
Proof.
  intros u broker_url base path B. unfold resolve_path. rewrite B. cbn [url_ok bind].
  assert (forall p s, starts_with p s = true <-> exists r, s = p ++ r) as SW.
  { clear. induction p as [|c p IH]; intro s.
    - cbn [starts_with app]. split; [intros _; exists s; reflexivity|reflexivity].
    - destruct s as [|d s].
      + cbn [starts_with]. split; [intro H; discriminate H|intros [r R]; discriminate R].
      + cbn [starts_with]. rewrite andb_true_iff, IH, N.eqb_eq. split; [intros [-> [r ->]]; exists r; reflexivity|intros [r R]; injection R as -> ->; split; [reflexivity|exists r; reflexivity]]. }
  split; [intros ->; reflexivity|]. split.
  - intros NE C. destruct path as [|c path]; [contradiction|].
    assert (nonempty (u_path u base) && negb (str_eqb (u_path u base) (S_ "/")) = false) as -> by (destruct C as [->| ->]; reflexivity). destruct (u_join u base (c :: path)); reflexivity.
  - intros NE C1 C2. destruct path as [|c path]; [contradiction|].
    assert (nonempty (u_path u base) && negb (str_eqb (u_path u base) (S_ "/")) = true) as ->.
    { destruct (str_eqb_spec (u_path u base) (S_ "/")); [contradiction|]. destruct (u_path u base); [contradiction|reflexivity]. }
    split; [|split].
    + intro H. apply SW in H. rewrite H. destruct (u_join u _ _); reflexivity.
    + intros H1 H2. destruct (starts_with (u_path u base) (c :: path)) eqn:E; [apply SW in E; contradiction|]. apply SW in H2. rewrite H2. reflexivity.
    + intros H1 H2. destruct (starts_with (u_path u base) (c :: path)) eqn:E; [apply SW in E; contradiction|]. destruct (starts_with (S_ "/") (c :: path)) eqn:E2; [apply SW in E2; contradiction|].
      destruct (u_join u _ _); reflexivity.
Qed.

(** ** Examples *)
Definition ex_urls : url_lib := mkUrlLib str (fun s => Some s) (fun _ p => Some p) (fun s => s) (fun _ p => p).
Definition ex_link_json (href : str) : json := object [(S_ "href", JStr href); (S_ "templated", JBool true)].
Definition ex_broker_doc : json :=
  object [(S_ "_links", object [(S_ "pb:branch-version", ex_link_json (S_ "/b/{branch}/{version}")); (S_ "pb:version-tag", ex_link_json (S_ "/v/{version}/{tag}"));
            (S_ "pb:provider-pacts-for-verification", ex_link_json (S_ "/p/{provider}")); (S_ "self", ex_link_json (S_ "/self"))]);
          (S_ "_embedded", object [(S_ "pacts", JArr [object [(S_ "shortDescription", JStr (S_ "latest")); (S_ "_links", object [(S_ "self", ex_link_json (S_ "/pact/1"))]);
             (S_ "verificationProperties", object [(S_ "pending", JBool true); (S_ "notices", JArr [])])]])])].
Definition ex_broker_externals : externals := mkExt (fun _ => Some (mkCT (S_ "application") (S_ "json") [] None)) (fun _ => mkCT (S_ "text") (S_ "plain") [] None) (fun _ => None)
  (fun _ => Some ex_broker_doc) (fun _ => None) (fun _ _ => true) (fun _ _ _ => []) (fun _ _ _ _ _ => []).
Definition ex_broker : request_log ex_urls -> broker_request ex_urls -> option broker_response := fun _ _ => Some (mkBResp 200 None []).
Definition ex_links : list link := [mkLink (S_ "pb:provider") (Some (S_ "/provider")) false None; mkLink (S_ "PB:publish-verification-results") (Some (S_ "/results")) false None].
Example C85_example : forall w, exists h',
  publish_results w ex_broker_externals (fun _ => false) ex_urls ex_broker ex_links (S_ "b") (Some (AToken (S_ "t"))) (JObj []) (S_ "1/2") [S_ "a"; S_ "b"] (Some (S_ "main")) [] =
    (Ok ex_broker_doc, h') /\
  map (fun q : broker_request ex_urls => (br_method q, br_url q)) h' =
    [(BGet, S_ "/provider"); (BPut, S_ "/b/main/1%2F2"); (BGet, S_ "/provider"); (BPut, S_ "/v/1%2F2/a"); (BPut, S_ "/v/1%2F2/b"); (BPost, S_ "/results")].
Proof. intro w. eexists. split; [vm_compute; reflexivity|]. vm_compute. reflexivity. Qed.
Example C84_example : forall w, exists r h',
  fetch_pacts_dynamically w ex_broker_externals (fun _ => false) ex_urls ex_broker (fun _ => Some tt) (S_ "b") (S_ "P 1") false None [] None [] None [] = (Ok [Ok (tt, mkProps true [], r)], h') /\
  map (fun q : broker_request ex_urls => (br_method q, br_url q)) h' = [(BGet, S_ "b"); (BGet, S_ "/p/P%201"); (BPost, S_ "/self"); (BGet, S_ "/pact/1")].
Proof. intro w. eexists. eexists. split; [vm_compute; reflexivity|]. vm_compute. reflexivity. Qed.
