(** C81: the request to the provider. *)
From Coq Require Import Ascii String List Arith NArith ZArith Lia Bool Sorted Permutation.
From Verif Require Import Base PathExp Json Text MatchingRules Matchers JsonCompare Headers Query ContentType Http Merge
  VerifierClient SpecVerifierClient.
Import ListNotations.
Open Scope N_scope.

Lemma drop_slashes : forall s, exists n p, s = repeat 47 n ++ p /\ ~ starts_with_slash p /\ drop_while is_slash s = p.
Proof.
  induction s as [|c s (n & p & E & N & D)].
  - exists O, []. repeat split. intros (b & X). discriminate.
  - cbn [drop_while]. unfold is_slash at 1. destruct (N.eqb_spec c 47) as [->|Ne].
    + exists (S n), p. split; [cbn [repeat app]; rewrite <- E; reflexivity|]. split; assumption.
    + exists O, (c :: s). split; [reflexivity|]. split; [|reflexivity]. intros (b & X). congruence.
Qed.
Lemma drop_end_slashes : forall s, exists b m, s = b ++ repeat 47 m /\ ~ ends_with_slash b /\ trim_end_slashes s = b.
Proof.
  intro s. unfold trim_end_slashes. destruct (drop_slashes (rev s)) as (n & p & E & N & D). exists (rev p), n. rewrite D. split; [|split; [|reflexivity]].
  - rewrite <- (rev_involutive s), E, rev_app_distr. f_equal. clear. induction n as [|n IH]; [reflexivity|]. cbn [repeat rev]. rewrite IH.
    clear. induction n as [|n IH]; [reflexivity|]. cbn [repeat app]. rewrite IH. reflexivity.
  - intros (b & X). apply N. exists (rev b). rewrite <- (rev_involutive p), X, rev_app_distr. reflexivity.
Qed.

(** C81: the path follows the address of the provider after exactly one slash; without a path the address stands alone. *)
Theorem C81_url : forall base path,
  (path <> [] -> path <> S_ "/" -> joined base path (join_paths base path)) /\
  (path = [] \/ path = S_ "/" ->
     ((base = [] \/ base = S_ "/") -> join_paths base path = S_ "/") /\
     (base <> [] -> base <> S_ "/" -> exists b m, base = b ++ repeat 47 m /\ ~ ends_with_slash b /\ join_paths base path = b)).
Proof.
  intros base path. unfold join_paths. split.
  - intros N1 N2. destruct path as [|c p]; [congruence|]. cbn [nonempty andb].
    destruct (str_eqb_spec (c :: p) (S_ "/")) as [E|_]; [congruence|]. cbn [negb].
    destruct (drop_end_slashes base) as (b & m & E & Nb & ->). destruct (drop_slashes (c :: p)) as (n & q & E' & Nq & D).
    exists b, m, n, q. unfold trim_start_slashes. rewrite D. repeat split; assumption.
  - intro P. assert (C : nonempty path && negb (str_eqb path (S_ "/")) = false) by (destruct P as [-> | ->]; reflexivity). rewrite C. split.
    + intros [-> | ->]; reflexivity.
    + intros N1 N2. destruct base as [|c p]; [congruence|]. cbn [nonempty andb]. destruct (str_eqb_spec (c :: p) (S_ "/")) as [E|_]; [congruence|]. cbn [negb].
      destruct (drop_end_slashes (c :: p)) as (b & m & E & Nb & ->). exists b, m. repeat split; assumption.
Qed.

Lemma insert_by_key_perm : forall A (e : str * A) l, Permutation (e :: l) (insert_by_key e l).
Proof.
  intros A e. induction l as [|e' l IH]; [reflexivity|]. cbn [insert_by_key]. destruct (str_compare (fst e) (fst e')); try reflexivity.
  rewrite perm_swap. constructor. exact IH.
Qed.
Lemma insert_by_key_sorted : forall A (e : str * A) l, Sorted (fun a b => str_compare (fst a) (fst b) <> Gt) l ->
  Sorted (fun a b => str_compare (fst a) (fst b) <> Gt) (insert_by_key e l).
Proof.
  intros A e. induction l as [|e' l IH]; intro H; [repeat constructor|]. cbn [insert_by_key].
  destruct (str_compare (fst e) (fst e')) eqn:C; [constructor; [exact H|constructor; congruence]|constructor; [exact H|constructor; congruence]|].
  inversion H as [|? ? H1 H2]; subst. constructor; [apply IH, H1|].
  assert (C' : str_compare (fst e') (fst e) <> Gt) by (rewrite str_compare_antisym, C; discriminate).
  destruct l as [|e2 l]; [constructor; exact C'|]. cbn [insert_by_key]. inversion H2; subst.
  destruct (str_compare (fst e) (fst e2)); constructor; assumption.
Qed.
Theorem C81_query : forall q, written_query q (native_query (Some q)).
Proof.
  intro q. exists (sort_by_key q). unfold sort_by_key. split; [|split].
  - induction q as [|e q IH]; [reflexivity|]. cbn [fold_right]. rewrite <- insert_by_key_perm. constructor. exact IH.
  - induction q as [|e q IH]; [constructor|]. cbn [fold_right]. apply insert_by_key_sorted, IH.
  - reflexivity.
Qed.

Section Headers.
Variable w : world.
Variable x : externals.
Variable cx : client_externals.

Lemma all_some_app : forall A (a b : list (option A)), all_some (a ++ b) =
  match all_some a with Some l => match all_some b with Some m => Some (l ++ m) | None => None end | None => None end.
Proof.
  induction a as [|[v|] a IH]; intro b; cbn [app all_some]; [destruct (all_some b); reflexivity| |reflexivity]. rewrite IH.
  destruct (all_some a); [|reflexivity]. destruct (all_some b); reflexivity.
Qed.
Lemma obj_has_custom : forall k (custom : list (str * str)), obj_has k custom = existsb (fun c => str_eqb k (fst c)) custom.
Proof. intros k. induction custom as [|[k' v] l IH]; [reflexivity|]. cbn [existsb fst]. rewrite <- IH. unfold obj_has. cbn [obj_get]. destruct (str_eqb k k'); reflexivity. Qed.
Lemma values_app : forall name a b, values_of name (a ++ b) = values_of name a ++ values_of name b.
Proof. intros. unfold values_of. apply flat_map_app. Qed.

Lemma one_header : forall name k vs l, all_some (map (native_value cx k) vs) = Some l ->
  values_of name l = if named cx name k then vs else [].
Proof.
  intros name k. induction vs as [|v vs IH]; intros l H; cbn [map all_some] in H.
  - injection H as <-. destruct (named cx name k); reflexivity.
  - unfold native_value in H at 1. unfold named in *. destruct (http_name cx k) as [n|] eqn:E; [|discriminate]. destruct (http_value_ok cx v); [|discriminate].
    destruct (all_some (map (native_value cx k) vs)) as [l'|]; [|discriminate]. cbn [option_map] in H. injection H as <-.
    change (values_of name ((n, v) :: l')) with ((if str_eqb n name then [v] else []) ++ values_of name l'). rewrite (IH l' eq_refl).
    destruct (str_eqb n name); reflexivity.
Qed.
Lemma pact_headers_ok : forall custom h name l, native_headers cx custom h = Some l -> values_of name l = pact_values cx h custom name.
Proof.
  intros custom [m|] name l H; unfold native_headers in H; [|injection H as <-; reflexivity]. unfold pact_values.
  revert l H. induction m as [|[k vs] m IH]; intros l H; [injection H as <-; reflexivity|]. cbn [filter fst] in H. cbn [flat_map fst snd].
  rewrite <- obj_has_custom. destruct (obj_has k custom); cbn [negb] in H |- *; [rewrite andb_false_r; exact (IH l H)|]. rewrite andb_true_r.
  cbn [flat_map fst snd] in H. rewrite all_some_app in H. destruct (all_some (map (native_value cx k) vs)) as [a|] eqn:A; [|discriminate].
  destruct (all_some _) as [b|]; [|discriminate]. injection H as <-. rewrite values_app, (IH b eq_refl), (one_header name k vs a A). reflexivity.
Qed.
Lemma default_headers_ok : forall custom name l, default_headers cx custom = Some l -> values_of name l = custom_values cx custom name.
Proof.
  intros custom name. unfold default_headers, custom_values. induction custom as [|[k v] c IH]; intros l H; [injection H as <-; reflexivity|].
  cbn [map all_some fst snd flat_map] in *. unfold native_value in H at 1. unfold named in *. destruct (http_name cx k) as [n|]; [|discriminate].
  destruct (http_value_ok cx v); [|discriminate]. destruct (all_some _) as [l'|]; [|discriminate]. injection H as <-.
  change (values_of name ((n, v) :: l')) with ((if str_eqb n name then [v] else []) ++ values_of name l'). rewrite (IH l' eq_refl). reflexivity.
Qed.
Lemma obj_has_values : forall name (l : list (str * str)), obj_has name l = match values_of name l with [] => false | _ => true end.
Proof.
  intros name. induction l as [|[n v] l IH]; [reflexivity|]. unfold obj_has in *. cbn [obj_get].
  change (values_of name ((n, v) :: l)) with ((if str_eqb n name then [v] else []) ++ values_of name l).
  destruct (str_eqb_spec name n) as [->|Ne]; [rewrite str_eqb_refl; reflexivity|]. destruct (str_eqb_spec n name) as [E|_]; [congruence|]. exact IH.
Qed.

(** C81: the parts of a request as the provider gets them. A header has the values of the pact, except those under the exact name of a
    custom header, and only if that leaves none the values of the custom headers. *)
Theorem C81_request : forall base r custom defaults n,
  create_native_request w x cx base r custom = Some n -> default_headers cx custom = Some defaults ->
  let sent := with_defaults defaults n in
  n_url sent = join_paths base (req_path r) /\
  (method_ok cx (req_method r) = true -> n_method sent = req_method r) /\
  (forall q, req_query r = Some q -> written_query q (n_query sent)) /\ (req_query r = None -> n_query sent = []) /\
  (forall name, values_of name (n_headers sent) =
     match pact_values cx (req_headers r) custom name with [] => custom_values cx custom name | vs => vs end) /\
  (forall s ct hint, req_body r = BPresent s ct hint -> n_body sent = Some s) /\
  (req_body r = BMissing \/ req_body r = BEmpty -> n_body sent = None).
Proof.
  intros base r custom defaults n H D sent. unfold create_native_request in H. destruct (native_headers cx custom (req_headers r)) as [hs|] eqn:NH; [|discriminate].
  injection H as <-. subst sent. cbn [with_defaults n_url n_method n_query n_headers n_body].
  split; [reflexivity|]. split; [intros ->; reflexivity|]. split; [intros q ->; apply C81_query|]. split; [intros ->; reflexivity|].
  split; [|split; [intros s ct hint E; unfold native_body; rewrite E; reflexivity|intros [E|E]; unfold native_body; rewrite E; reflexivity]].
  intro name. rewrite values_app, (pact_headers_ok _ _ name _ NH).
  assert (F : forall l, values_of name (filter (fun kv => negb (obj_has (fst kv) hs)) l) = if obj_has name hs then [] else values_of name l).
  { induction l as [|[k v] l IH]; [destruct (obj_has name hs); reflexivity|]. cbn [filter fst].
    change (values_of name ((k, v) :: l)) with ((if str_eqb k name then [v] else []) ++ values_of name l).
    destruct (str_eqb_spec k name) as [->|Ne].
    - destruct (obj_has name hs) eqn:O; cbn [negb]; [exact IH|].
      change (values_of name ((name, v) :: filter (fun kv => negb (obj_has (fst kv) hs)) l)) with
        ((if str_eqb name name then [v] else []) ++ values_of name (filter (fun kv => negb (obj_has (fst kv) hs)) l)). rewrite str_eqb_refl, IH. reflexivity.
    - destruct (obj_has k hs); cbn [negb app]; [exact IH|].
      change (values_of name ((k, v) :: filter (fun kv => negb (obj_has (fst kv) hs)) l)) with
        ((if str_eqb k name then [v] else []) ++ values_of name (filter (fun kv => negb (obj_has (fst kv) hs)) l)).
      destruct (str_eqb_spec k name) as [E|_]; [congruence|]. exact IH. }
  rewrite F, obj_has_values, (pact_headers_ok _ _ name _ NH). destruct (pact_values cx (req_headers r) custom name); [|rewrite app_nil_r; reflexivity].
  cbn [app]. apply default_headers_ok, D.
Qed.
(** C81: a request is refused exactly for a header of the pact that HTTP does not allow. *)
Theorem C81_refused : forall base r custom,
  create_native_request w x cx base r custom = None <->
  exists h k vs v, req_headers r = Some h /\ In (k, vs) h /\ In v vs /\ ~ In k (map fst custom) /\ (http_name cx k = None \/ http_value_ok cx v = false).
Proof.
  intros base r custom. unfold create_native_request.
  assert (Q : native_headers cx custom (req_headers r) = None <-> exists h k vs v, req_headers r = Some h /\ In (k, vs) h /\ In v vs /\ ~ In k (map fst custom) /\ (http_name cx k = None \/ http_value_ok cx v = false)).
  { unfold native_headers. destruct (req_headers r) as [m|]; [|split; [discriminate|intros (h & k & vs & v & X & _); discriminate]].
    assert (A : forall l : list (option (str * str)), all_some l = None <-> In None l).
    { induction l as [|[a|] l IH]; cbn [all_some]; [split; [discriminate|intros []]| |split; [left; reflexivity|reflexivity]].
      destruct (all_some l); cbn [option_map]; split; try discriminate.
      - intros [X|I]; [discriminate|]. apply IH in I. discriminate.
      - intros _. right. apply IH. reflexivity.
      - reflexivity. }
    assert (C : forall k, obj_has k custom = true <-> In k (map fst custom)).
    { intro k. rewrite obj_has_custom, existsb_exists, in_map_iff. split.
      - intros (c & I & E). apply str_eqb_eq in E. exists c. split; [symmetry; exact E|exact I].
      - intros (c & E & I). exists c. split; [exact I|]. rewrite E. apply str_eqb_refl. }
    rewrite A, in_flat_map. split.
    - intros ([k vs] & I & J). apply filter_In in I. destruct I as [I F]. cbn [fst snd] in *. apply in_map_iff in J. destruct J as (v & E & J).
      exists m, k, vs, v. split; [reflexivity|]. split; [exact I|]. split; [exact J|]. split.
      + intro X. apply C in X. rewrite X in F. discriminate.
      + unfold native_value in E. destruct (http_name cx k); [|left; reflexivity]. right. destruct (http_value_ok cx v); [discriminate|reflexivity].
    - intros (h & k & vs & v & E & I & J & N & B). injection E as <-. exists (k, vs). split.
      + apply filter_In. split; [exact I|]. cbn [fst]. destruct (obj_has k custom) eqn:O; [|reflexivity]. exfalso. apply N, C, O.
      + cbn [fst snd]. apply in_map_iff. exists v. split; [|exact J]. unfold native_value. destruct B as [-> | ->]; [reflexivity|]. destruct (http_name cx k); reflexivity. }
  rewrite <- Q. destruct (native_headers cx custom (req_headers r)); split; (discriminate || reflexivity).
Qed.
(** C81 (why): a custom header only replaces a header of the pact written with the same letters; a header of the pact that differs in
    case wins over it. And a method that HTTP does not allow becomes GET. *)
Theorem C81_why_custom_header : forall base custom_value pact_value b,
  http_name cx (S_ "X-Auth") = Some (S_ "x-auth") -> http_name cx (S_ "x-auth") = Some (S_ "x-auth") -> http_value_ok cx pact_value = true -> http_value_ok cx custom_value = true ->
  let custom := [(S_ "X-Auth", custom_value)] in
  let r := mkReq (S_ "GET") (S_ "/") None (Some [(S_ "x-auth", [pact_value])]) b [] in
  exists n d, create_native_request w x cx base r custom = Some n /\ default_headers cx custom = Some d /\
    n_headers (with_defaults d n) = [(S_ "x-auth", pact_value)].
Proof.
  intros base cv pv b N1 N2 V1 V2 custom r. unfold create_native_request, native_headers, default_headers, r. cbn [req_headers].
  change (filter (fun kv : str * list str => negb (obj_has (fst kv) custom)) [(S_ "x-auth", [pv])]) with [(S_ "x-auth", [pv])]. unfold custom.
  cbn [flat_map map fst snd app]. unfold native_value. rewrite N1, N2, V1, V2.
  cbn [all_some option_map]. eexists. eexists. split; [reflexivity|]. split; [reflexivity|]. reflexivity.
Qed.
Theorem C81_why_method : forall base r n, method_ok cx (req_method r) = false -> create_native_request w x cx base r [] = Some n -> n_method n = S_ "GET".
Proof.
  intros base r n M H. unfold create_native_request in H. destruct (native_headers cx [] (req_headers r)); [|discriminate]. injection H as <-.
  cbn [n_method]. rewrite M. reflexivity.
Qed.
End Headers.

(** C81: the first transport with the name the interaction asks for, or one for its kind; its scheme is http unless it has one;
    without such a transport the address of the provider itself. *)
Theorem C81_address : forall wanted p,
  (forall a t b, p_transports p = a ++ t :: b -> wanted (t_name t) = true -> (forall u, In u a -> wanted (t_name u) = false) ->
     target_url p (find_transport wanted p) =
       (match t_scheme t with Some s => s | None => S_ "http" end) ++ S_ "://" ++ p_host p ++
       (match t_port t with Some n => S_ ":" ++ show_N n | None => [] end) ++ (match t_path t with Some s => s | None => [] end)) /\
  ((forall u, In u (p_transports p) -> wanted (t_name u) = false) ->
     target_url p (find_transport wanted p) =
       p_protocol p ++ S_ "://" ++ p_host p ++ (match p_port p with Some n => S_ ":" ++ show_N n | None => [] end) ++ p_path p).
Proof.
  intros wanted p. unfold find_transport. split.
  - intros a t b E T F. rewrite E.
    assert (G : find (fun t => wanted (t_name t)) (a ++ t :: b) = Some t).
    { clear E. induction a as [|u a IH]; cbn [app find]; [rewrite T; reflexivity|]. rewrite (F u (or_introl eq_refl)). apply IH. intros v I. apply F. right. exact I. }
    rewrite G. unfold target_url, base_url, url_of. destruct (t_scheme t) eqn:Sc; cbn [t_scheme t_port t_path]; rewrite ?Sc; unfold or_nothing; reflexivity.
  - intro F. assert (G : find (fun t => wanted (t_name t)) (p_transports p) = None).
    { induction (p_transports p) as [|u a IH]; [reflexivity|]. cbn [find]. rewrite (F u (or_introl eq_refl)). apply IH. intros v I. apply F. right. exact I. }
    rewrite G. reflexivity.
Qed.

(** C81: retrying. *)
Section Retry.
Context {A : Type}.
Variable server_error : A -> bool.
Variable send : nat -> A.
Definition after (k : nat) : option A * bool * nat := fold_left (fun s _ => retry_step server_error send s) (seq 1 k) (None, true, O).
Lemma after_succ : forall k, after (S k) = retry_step server_error send (after k).
Proof. intro k. unfold after. rewrite seq_S, fold_left_app. reflexivity. Qed.
Lemma after_ok : forall k, exists a more sent, after (S k) = (Some a, more, sent) /\ (1 <= sent <= S k)%nat /\ a = send (sent - 1)%nat /\
  (forall j, (j < sent - 1)%nat -> server_error (send j) = true) /\ (more = true -> sent = S k) /\ (more = false -> server_error a = false).
Proof.
  induction k as [|k (a & more & sent & E & L & Ea & F & M & N)].
  - exists (send O), true, 1%nat. split; [reflexivity|]. split; [lia|]. split; [reflexivity|]. split; [intros; lia|]. split; [reflexivity|discriminate].
  - rewrite after_succ, E. destruct more; cbn [retry_step].
    + destruct (server_error a) eqn:Se.
      * exists (send sent), true, (S sent). split; [reflexivity|]. split; [lia|]. split; [f_equal; lia|]. split; [|split; [intros _; rewrite (M eq_refl); reflexivity|discriminate]].
        intros j Lj. assert (C : (j < sent - 1 \/ j = sent - 1)%nat) by lia. destruct C as [C|C]; [exact (F j C)|]. rewrite C, <- Ea. exact Se.
      * exists a, false, sent. split; [reflexivity|]. split; [lia|]. split; [exact Ea|]. split; [exact F|]. split; [discriminate|intros _; exact Se].
    + exists a, false, sent. split; [reflexivity|]. split; [lia|]. split; [exact Ea|]. split; [exact F|]. split; [discriminate|exact N].
Qed.
(** With at least one try the answer is the first that is no server error, or the last. *)
Theorem C81_retries : forall retries, (1 <= retries)%nat ->
  exists a sent, with_retries server_error send true retries = Ok (a, sent) /\ retried server_error send retries a sent.
Proof.
  intros [|k] L; [lia|]. destruct (after_ok k) as (a & more & sent & E & L' & Ea & F & M & N). exists a, sent.
  unfold with_retries. change (fold_left _ _ _) with (after (S k)). rewrite E. split; [reflexivity|]. split; [exact L'|]. split; [exact Ea|]. split; [exact F|].
  intro Se. destruct more; [exact (M eq_refl)|]. rewrite (N eq_refl) in Se. discriminate.
Qed.
(** (why) No tries at all is a panic; a request that cannot be copied is sent once. *)
Theorem C81_why_no_retries : with_retries server_error send true 0 = Panic /\ forall retries, with_retries server_error send false retries = Ok (send O, 1%nat).
Proof. split; reflexivity. Qed.
End Retry.

Example C81_example :
  let cx := mkCx (fun _ => true) (fun n => Some n) (fun _ => true) (fun _ => []) in
  let r := mkReq (S_ "GET") (S_ "//a") (Some [(S_ "z", [Some (S_ "1"); None]); (S_ "b", [None])]) (Some [(S_ "k", [S_ "1"; S_ "2"]); (S_ "c", [S_ "3"])]) (BPresent [1] None None) [] in
  forall w x, exists n, create_native_request w x cx (S_ "http://h/p/") r [(S_ "c", S_ "4")] = Some n /\
    n_url n = S_ "http://h/p/a" /\ n_query n = [(S_ "b", None); (S_ "z", Some (S_ "1")); (S_ "z", None)] /\
    n_headers (with_defaults [(S_ "c", S_ "4")] n) = [(S_ "k", S_ "1"); (S_ "k", S_ "2"); (S_ "c", S_ "4")].
Proof. intros cx r w x. eexists. split; [vm_compute; reflexivity|]. repeat split; reflexivity. Qed.
Example C81_retry_example :
  exists a sent, with_retries (fun s => 500 <=? s) (fun k => match k with 0%nat => 503 | 1%nat => 200 | _ => 404 end) true 4 = Ok (a, sent) /\
    retried (fun s => 500 <=? s) (fun k => match k with 0%nat => 503 | 1%nat => 200 | _ => 404 end) 4 a sent /\ a = 200 /\ sent = 2%nat.
Proof.
  destruct (C81_retries (fun s => 500 <=? s) (fun k => match k with 0%nat => 503 | 1%nat => 200 | _ => 404 end) 4 ltac:(lia)) as (a & sent & E & R).
  exists a, sent. split; [exact E|]. split; [exact R|]. cbn in E. injection E as <- <-. split; reflexivity.
Qed.
