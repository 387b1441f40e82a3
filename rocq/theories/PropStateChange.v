(** C86: asking for provider states over HTTP. C87: the pacts of a directory. *)
From Coq Require Import Ascii String List Arith NArith ZArith Lia Bool Sorted Permutation.
From Verif Require Import Base PathExp Json Text MatchingRules Matchers JsonCompare Headers Query ContentType Http Merge VerifierClient Verifier
  SpecVerifierClient SpecVerifier PropVerifierClient PropVerifier PropBroker2 StateChange SpecStateChange.
Import ListNotations.
Open Scope N_scope.

Section StateChange.
Variable w : world.
Variable x : externals.
Variable cx : client_externals.

Lemma of_list_sorted : forall A (l m : list (str * A)), StronglySorted str_lt (keys m) ->
  StronglySorted str_lt (keys (fold_left (fun m kv => obj_insert (fst kv) (snd kv) m) l m)).
Proof. intro A. induction l as [|[k v] l IH]; intros m H; [exact H|]. cbn [fold_left]. apply IH, obj_insert_sorted, H. Qed.

Lemma body_asks : forall s setup, asks_in_body s setup (state_change_json s setup).
Proof.
  intros s setup. unfold state_change_json. eexists _, _. split; [reflexivity|]. rewrite !of_list_get.
  assert (forall a b : json, last_entry (S_ "state") [(S_ "state", a); (S_ "params", b); (S_ "action", JStr (action setup))] = Some a) as E1 by reflexivity.
  split; [apply E1|]. split; [destruct setup; reflexivity|]. split; [reflexivity|]. split; [|split; [|split]].
  - intros k H. apply obj_get_some_in in H. destruct H as (v & H). rewrite of_list_get in H. cbn [last_entry] in H.
    destruct (str_eqb_spec k (S_ "action")) as [->|_]; [auto|]. destruct (str_eqb_spec k (S_ "params")) as [->|_]; [auto|].
    destruct (str_eqb_spec k (S_ "state")) as [->|_]; [auto|discriminate].
  - apply sorted_nodup, of_list_sorted. constructor.
  - intro k. rewrite insert_all_json_get. destruct (last_entry k (st_params s)); reflexivity.
  - apply sorted_nodup, of_list_sorted. constructor.
Qed.

(** A query in which each name has one value. *)
Lemma single_query : forall (q : query_map), NoDup (keys q) -> (forall k vs, In (k, vs) q -> exists v, vs = [v]) ->
  NoDup (map fst (native_query (Some q))) /\ forall k v, In (k, v) (native_query (Some q)) <-> obj_get k q = Some [v].
Proof.
  intros q ND One. unfold native_query.
  assert (P : Permutation q (sort_by_key q)).
  { unfold sort_by_key. clear. induction q as [|e q IH]; [reflexivity|]. cbn [fold_right]. rewrite <- insert_by_key_perm. constructor. exact IH. }
  assert (K : map fst (flat_map (fun kv => map (fun v : option str => (fst kv, v)) (snd kv)) (sort_by_key q)) = keys (sort_by_key q)).
  { assert (One' : forall k vs, In (k, vs) (sort_by_key q) -> exists v, vs = [v]) by (intros k vs H; apply (One k vs), (Permutation_in _ (Permutation_sym P)), H).
    clear - One'. induction (sort_by_key q) as [|[k vs] l IH]; [reflexivity|]. cbn [flat_map fst snd].
    destruct (One' k vs (or_introl eq_refl)) as (v & ->). cbn [map app fst keys]. f_equal. apply IH. intros. apply (One' k0). right. assumption. }
  split.
  - rewrite K. unfold keys. apply (Permutation_NoDup (Permutation_map fst P)), ND.
  - intros k v. rewrite in_flat_map. split.
    + intros ([k' vs] & Hin & H). cbn [fst snd] in H. apply (Permutation_in _ (Permutation_sym P)) in Hin. destruct (One _ _ Hin) as (v' & ->).
      destruct H as [H|[]]. injection H as -> ->. apply obj_get_nodup; assumption.
    + intro H. apply obj_get_in in H. exists (k, [v]). split; [apply (Permutation_in _ P), H|left; reflexivity].
Qed.
Lemma query_asks : forall s setup, asks_in_query w s setup (native_query (Some (state_change_query w s setup))).
Proof.
  intros s setup. unfold state_change_query.
  set (q0 := obj_insert (S_ "action") [Some (action setup)] [(S_ "state", [Some (st_name s)])]).
  set (f := fun (q : query_map) (kv : str * json) => obj_insert (fst kv) [Some match snd kv with JStr t => t | v => json_show w v end] q).
  assert (G : forall l m, StronglySorted str_lt (keys m) -> (forall k vs, In (k, vs) m -> exists v, vs = [v]) ->
     StronglySorted str_lt (keys (fold_left f l m)) /\ (forall k vs, In (k, vs) (fold_left f l m) -> exists v, vs = [v]) /\
     forall k, obj_get k (fold_left f l m) = match last_entry k l with Some p => Some [Some (query_text w p)] | None => obj_get k m end).
  { induction l as [|[k0 v0] l IH]; intros m Hs One; [split; [exact Hs|split; [exact One|reflexivity]]|]. cbn [fold_left].
    destruct (IH (f m (k0, v0))) as (I1 & I2 & I3).
    - unfold f. apply obj_insert_sorted, Hs.
    - intros k vs H. assert (H1 : obj_get k (f m (k0, v0)) = Some vs).
      { apply obj_get_nodup; [|exact H]. unfold f. apply sorted_nodup, obj_insert_sorted, Hs. }
      unfold f in H1. rewrite obj_insert_get in H1. destruct (str_eqb k _); [injection H1 as <-; eauto|]. apply (One k), obj_get_in, H1.
    - split; [exact I1|]. split; [exact I2|]. intro k. rewrite I3. cbn [last_entry]. destruct (last_entry k l); [reflexivity|].
      unfold f. rewrite obj_insert_get. cbn [fst snd]. destruct (str_eqb k k0); [destruct v0; reflexivity|reflexivity]. }
  assert (Q0 : forall k, obj_get k q0 = if str_eqb k (S_ "action") then Some [Some (action setup)] else if str_eqb k (S_ "state") then Some [Some (st_name s)] else None).
  { intro k. unfold q0. rewrite obj_insert_get. reflexivity. }
  destruct (G (st_params s) q0) as (I1 & I2 & I3).
  - apply obj_insert_sorted. repeat constructor.
  - intros k vs H. assert (H1 : obj_get k q0 = Some vs) by (apply obj_get_nodup; [apply sorted_nodup, obj_insert_sorted; repeat constructor|exact H]).
    rewrite Q0 in H1. destruct (str_eqb k (S_ "action")); [injection H1 as <-; eauto|]. destruct (str_eqb k (S_ "state")); [injection H1 as <-; eauto|discriminate].
  - destruct (single_query _ (sorted_nodup _ I1) I2) as (N1 & M). split; [exact N1|]. intros k v. refine (iff_trans (M k v) _). rewrite I3.
    destruct (last_entry k (st_params s)) as [p|]; [split; congruence|]. rewrite Q0.
    destruct (str_eqb_spec k (S_ "action")) as [->|Na].
    + split; [intro E; injection E as <-; right; destruct setup; auto|]. intros [(E & _)|(_ & ->)]; [discriminate E|]. destruct setup; reflexivity.
    + destruct (str_eqb_spec k (S_ "state")) as [->|Ns]; [|split; [discriminate|intros [(E & _)|(E & _)]; contradiction]].
      split; [intro E; injection E as <-; auto|]. intros [(_ & ->)|(E & _)]; [reflexivity|contradiction].
Qed.

Lemma values_returned : forall r, parse_mime x [] = None -> returns x r (returned_values x r).
Proof.
  intros r F. unfold returns, returned_values, first_content_type. destruct (obj_get (S_ "content-type") (nr_headers r)) as [[|[v|] rest]|].
  - right. split; [reflexivity|]. intros (v & rest & ct & m & E & _). discriminate.
  - destruct (parse_mime x v) as [ct|] eqn:E2.
    + destruct (is_json ct) eqn:E3.
      * destruct (json_of_bytes x (nr_body r)) as [[]|] eqn:E4;
          try (right; split; [reflexivity|]; intros (v' & rest' & ct' & m' & E & _ & _ & E'); discriminate).
        left. exists v, rest, ct, m. auto.
      * right. split; [reflexivity|]. intros (v' & rest' & ct' & m & E & E' & E'' & _). injection E as <- <-. rewrite E2 in E'. injection E' as <-. congruence.
    + right. split; [reflexivity|]. intros (v' & rest' & ct' & m & E & E' & _). injection E as <- <-. rewrite E2 in E'. discriminate.
  - rewrite F. right. split; [reflexivity|]. intros (v' & rest' & ct' & m & E & _). discriminate.
  - right. split; [reflexivity|]. intros (v' & rest' & ct' & m & E & _). discriminate.
Qed.

(** C86: with an address, the same POST request is sent to it until the answer is no server error, at most as often as
    configured. It says the name of the state, its parameters and what to do. An answer with a status 2xx is a success with the
    members of its JSON object; any other is a failure. *)
Theorem C86_state_change : forall e answers defaults s setup url,
  http_facts x cx -> se_url e = Some url -> (1 <= se_retries e)%nat -> url <> [] -> url <> S_ "/" ->
  exists n a sent result, call_executor w x cx e answers defaults s setup = Ok (result, repeat n sent) /\
    n_method n = S_ "POST" /\ (exists m, url = n_url n ++ repeat 47 m /\ ~ ends_with_slash (n_url n)) /\
    (se_body e = true -> n_query n = [] /\ values_of (S_ "content-type") (n_headers n) = [S_ "application/json"] /\
       exists j, n_body n = Some (utf8 (json_show w j)) /\ asks_in_body s setup j) /\
    (se_body e = false -> n_body n = None /\ asks_in_query w s setup (n_query n)) /\
    retried failed_on_server (answers n) (se_retries e) a sent /\
    match a with
    | Answered r => (200 <= nr_status r < 300 -> exists values, result = Some values /\ returns x r values) /\
                    (~ (200 <= nr_status r < 300) -> result = None)
    | Unanswered _ => result = None
    end.
Proof.
  intros e answers defaults s setup url (F1 & F2 & F3 & F4) U R N1 N2. unfold call_executor. rewrite U. unfold make_state_change_request.
  destruct (C81_url url (S_ "/")) as (_ & J). destruct (J (or_intror eq_refl)) as (_ & J'). destruct (J' N1 N2) as (b & m & Eu & Nb & Jp). clear J J'.
  assert (C : exists n, create_native_request w x cx url (state_change_request w e s setup) [] = Some n /\
      n_method n = S_ "POST" /\ n_url n = b /\
      (se_body e = true -> n_query n = [] /\ n_headers n = [(S_ "content-type", S_ "application/json")] /\ n_body n = Some (utf8 (json_show w (state_change_json s setup)))) /\
      (se_body e = false -> n_query n = native_query (Some (state_change_query w s setup)) /\ n_body n = None)).
  { unfold state_change_request, create_native_request. destruct (se_body e); cbn [req_headers req_method req_path req_query].
    - assert (H : native_headers cx [] (Some [(S_ "Content-Type", [S_ "application/json"])]) = Some [(S_ "content-type", S_ "application/json")]).
      { unfold native_headers. cbn [filter negb obj_has obj_get fst snd flat_map map app all_some]. unfold native_value. rewrite F1, F2. reflexivity. }
      rewrite H, F3. eexists. split; [reflexivity|]. cbn [n_method n_url n_query n_headers n_body]. split; [reflexivity|]. split; [exact Jp|].
      split; [|discriminate]. intros _. split; [reflexivity|]. split; reflexivity.
    - unfold native_headers. rewrite F3. eexists. split; [reflexivity|]. cbn [n_method n_url n_query n_headers n_body]. split; [reflexivity|]. split; [exact Jp|].
      split; [discriminate|]. intros _. split; reflexivity. }
  destruct C as (n & -> & Em & Eurl & Hb & Hq). set (n' := with_defaults defaults n).
  destruct (C81_retries failed_on_server (answers n') (se_retries e) R) as (a & sent & Ew & Rt). rewrite Ew. cbn [bind fst snd].
  eexists n', a, sent, _. split; [reflexivity|]. split; [exact Em|]. split; [exists m; unfold n'; cbn [with_defaults n_url]; rewrite Eurl; split; assumption|].
  split; [|split; [|split; [exact Rt|]]].
  - intro B. destruct (Hb B) as (Q & H & Bd). split; [exact Q|]. split.
    + unfold n'. cbn [with_defaults n_headers]. rewrite values_app, H.
      change (values_of (S_ "content-type") [(S_ "content-type", S_ "application/json")]) with [S_ "application/json"].
      assert (G : values_of (S_ "content-type") (filter (fun kv : str * str => negb (obj_has (fst kv) [(S_ "content-type", S_ "application/json")])) defaults) = []).
      { clear. induction defaults as [|[k v] l IH]; [reflexivity|]. cbn [filter fst]. unfold obj_has at 1. cbn [obj_get].
        destruct (str_eqb_spec k (S_ "content-type")) as [->|Ne]; cbn [negb]; [exact IH|].
        change (values_of (S_ "content-type") ((k, v) :: filter (fun kv : str * str => negb (obj_has (fst kv) [(S_ "content-type", S_ "application/json")])) l))
          with ((if str_eqb k (S_ "content-type") then [v] else []) ++ values_of (S_ "content-type") (filter (fun kv : str * str => negb (obj_has (fst kv) [(S_ "content-type", S_ "application/json")])) l)).
        rewrite IH. destruct (str_eqb_spec k (S_ "content-type")); [contradiction|reflexivity]. }
      rewrite G. reflexivity.
    + exists (state_change_json s setup). split; [exact Bd|apply body_asks].
  - intro B. destruct (Hq B) as (Q & Bd). split; [exact Bd|]. change (n_query n') with (n_query n). rewrite Q. apply query_asks.
  - destruct a as [r|o]; [|reflexivity]. unfold is_success. split.
    + intro L. replace ((200 <=? nr_status r) && (nr_status r <? 300)) with true by (symmetry; apply andb_true_iff; split; [apply N.leb_le|apply N.ltb_lt]; lia).
      eexists. split; [reflexivity|]. apply values_returned, F4.
    + intro L. destruct ((200 <=? nr_status r) && (nr_status r <? 300)) eqn:E; [|reflexivity]. apply andb_true_iff in E. destruct E as (E1 & E2).
      apply N.leb_le in E1. apply N.ltb_lt in E2. lia.
Qed.
(** C86: without an address nothing is sent, and the change is taken as done, without values. *)
Theorem C86_without_url : forall e answers defaults s setup, se_url e = None ->
  call_executor w x cx e answers defaults s setup = Ok (Some [], []).
Proof. intros e answers defaults s setup E. unfold call_executor. rewrite E. reflexivity. Qed.
(** (why) "Zero means none" is not so: no retries is no request at all, but a panic. *)
Theorem C86_why_retries : forall e answers defaults s setup url,
  http_facts x cx -> se_url e = Some url -> se_retries e = O -> call_executor w x cx e answers defaults s setup = Panic.
Proof.
  intros e answers defaults s setup url (F1 & F2 & F3 & F4) U R. unfold call_executor. rewrite U. unfold make_state_change_request. rewrite R.
  assert (C : exists n, create_native_request w x cx url (state_change_request w e s setup) [] = Some n).
  { unfold state_change_request, create_native_request. destruct (se_body e); cbn [req_headers].
    - unfold native_headers. cbn [filter negb obj_has obj_get fst snd flat_map map app all_some]. unfold native_value. rewrite F1, F2. eexists. reflexivity.
    - eexists. reflexivity. }
  destruct C as (n & ->). reflexivity.
Qed.
(** (why) In a query a parameter named "action" takes the place of the action: the set up and the tear down are one request. *)
Theorem C86_why_names : forall s v q q', last_entry (S_ "action") (st_params s) = Some v ->
  asks_in_query w s true q -> asks_in_query w s false q' -> forall k t, In (k, t) q <-> In (k, t) q'.
Proof.
  intros s v q q' L (_ & H) (_ & H') k t. rewrite H, H'. destruct (last_entry k (st_params s)) eqn:E; [reflexivity|].
  split; (intros [X|(-> & _)]; [left; exact X|congruence]).
Qed.
(** In a body they never are. *)
Theorem C86_set_up_or_tear_down : forall s s' j, asks_in_body s true j -> asks_in_body s' false j -> False.
Proof.
  intros s s' j (f & p & -> & _ & A & _) (f' & p' & E & _ & A' & _). injection E as <-. rewrite A in A'. discriminate.
Qed.
End StateChange.

(** * C87 *)
Section Walk.
Context {P : Type}.
Variable wanted : P -> bool.

Fixpoint entry_ind' (Q : dir_entry P -> Prop) (Hf : forall r, Q (DFile r)) (Hn : Q (DDir None)) (Hd : forall l, Forall Q l -> Q (DDir (Some l)))
  (e : dir_entry P) : Q e :=
  match e with
  | DFile r => Hf r
  | DDir None => Hn
  | DDir (Some l) => Hd l ((fix go l := match l return Forall Q l with [] => Forall_nil _ | e :: l' => Forall_cons _ (entry_ind' Q Hf Hn Hd e) (go l') end) l)
  end.
Lemma walk_entry_ok : forall e,
  (listable e -> walk_entry wanted e = Some (direct_pacts wanted [e])) /\ (~ listable e -> walk_entry wanted e = None).
Proof.
  induction e as [r| |l H] using entry_ind'.
  - split; [|intro N; exfalso; apply N; exact I]. intros _. destruct r as [p|]; [|reflexivity]. cbn. rewrite app_nil_r. reflexivity.
  - split; [intros []|reflexivity].
  - change (direct_pacts wanted [DDir (Some l)]) with (@nil (option P)). cbn [walk_entry listable].
    induction H as [|e l (H1 & H2) Hl IH]; [split; [reflexivity|intro N; exfalso; apply N; exact I]|]. split.
    + intros (L1 & L2). rewrite (H1 L1). rewrite (proj1 IH L2). reflexivity.
    + intro N. destruct (walk_entry wanted e) eqn:W; [|reflexivity].
      rewrite (proj2 IH); [reflexivity|]. intro X. assert (L1 : ~ listable e) by (intro Y; apply N; split; assumption).
      specialize (H2 L1). congruence.
Qed.
(** C87: a directory gives its own files, in order: the pacts of the provider, and the files that cannot be read as failures;
    if it or any directory below cannot be listed, nothing. *)
Theorem C87_directory : forall l,
  ((forall e, In e l -> listable e) -> walkdir wanted (Some l) = Some (direct_pacts wanted l)) /\
  ((exists e, In e l /\ ~ listable e) -> walkdir wanted (Some l) = None) /\ walkdir wanted None = None.
Proof.
  intro l. split; [|split; [|reflexivity]].
  - intro H. unfold walkdir. induction l as [|e l IH]; [reflexivity|]. cbn [map all_some].
    rewrite (proj1 (walk_entry_ok e) (H e (or_introl eq_refl))).
    assert (E := IH (fun e' I' => H e' (or_intror I'))). destruct (all_some (map (walk_entry wanted) l)) as [ls|]; [|discriminate].
    cbn [option_map] in *. injection E as E. cbn [concat]. rewrite E. unfold direct_pacts at 1. cbn [flat_map]. rewrite app_nil_r. reflexivity.
  - intros (e & I1 & N). unfold walkdir. induction l as [|e' l IH]; [contradiction|]. cbn [map all_some]. destruct I1 as [->|I1].
    + rewrite (proj2 (walk_entry_ok e) N). reflexivity.
    + destruct (walk_entry wanted e'); [|reflexivity]. specialize (IH I1). destruct (all_some _); [discriminate|reflexivity].
Qed.
(** (why) A pact in a directory below is not verified. *)
Theorem C87_why_flat : forall p, wanted p = true -> walkdir wanted (Some [DDir (Some [DFile (Some p)])]) = Some [].
Proof. reflexivity. Qed.
End Walk.

(** A state with a parameter of its own and one named like a field of the request. *)
Example C86_example :
  let cx := mkCx (fun _ => true) (fun n => if str_eqb n (S_ "Content-Type") then Some (S_ "content-type") else Some n) (fun _ => true) (fun _ => []) in
  let ct := mkCT (S_ "application") (S_ "json") [] None in
  let x := mkExt (fun s => if nonempty s then Some ct else None) (fun _ => ct) (fun _ => None) (fun _ => Some (JObj [(S_ "id", JStr (S_ "7"))])) (fun _ => None) (fun _ _ => true)
             (fun _ _ _ => []) (fun _ _ _ _ _ => []) in
  let s := mkState (S_ "a user") [(S_ "name", JStr (S_ "Mary")); (S_ "action", JBool true)] in
  let answers := fun (_ : native) k => match k with O => Answered (mkNR 503 [] []) | _ => Answered (mkNR 201 [(S_ "content-type", [Some (S_ "application/json")])] [123]) end in
  http_facts x cx /\
  forall w, exists n, call_executor w x cx (mkExecutor (Some (S_ "http://h/states/")) true false 3) answers [] s true =
     Ok (Some [(S_ "id", JStr (S_ "7"))], [n; n]) /\ n_url n = S_ "http://h/states" /\
     n_query n = [(S_ "action", Some (S_ "true")); (S_ "name", Some (S_ "Mary")); (S_ "state", Some (S_ "a user"))].
Proof.
  intros cx ct x s answers. split; [repeat split|]. intro w. eexists. split; [vm_compute; reflexivity|]. split; reflexivity.
Qed.
Example C87_example :
  walkdir (fun n : nat => Nat.even n) (Some [DFile (Some 2%nat); DDir (Some [DFile (Some 4%nat)]); DFile None; DFile (Some 3%nat)]) = Some [Some 2%nat; None].
Proof. destruct (C87_directory (fun n : nat => Nat.even n) [DFile (Some 2%nat); DDir (Some [DFile (Some 4%nat)]); DFile None; DFile (Some 3%nat)]) as (H & _).
  rewrite H; [reflexivity|]. intros e [H1|[H1|[H1|[H1|[]]]]]; subst e; cbn; auto. Qed.
