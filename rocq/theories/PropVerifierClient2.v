(** More on requests to the provider and its answers: addresses, bodies, headers and metadata exactly. *)
From Coq Require Import Ascii String List Arith NArith ZArith Lia Bool.
From Verif Require Import Base PathExp Json Text TextProofs MatchingRules Matchers JsonCompare Headers Query ContentType Http Merge VerifierClient Verifier SpecVerifierClient.
Import ListNotations.
Open Scope N_scope.
Local Opaque show_N.

(** C81: the address of a transport. *)
Theorem C81_base_url : forall t host, exists scheme port path,
  base_url t host = scheme ++ S_ "://" ++ host ++ port ++ path /\
  (t_scheme t = None -> scheme = S_ "http") /\ (forall s, t_scheme t = Some s -> scheme = s) /\
  (t_port t = None -> port = []) /\ (forall n, t_port t = Some n -> port = 58 :: show_N n) /\
  (t_path t = None -> path = []) /\ (forall s, t_path t = Some s -> path = s).
Proof.
  intros [name port path scheme] host. eexists _, _, _. split; [reflexivity|]. cbn [t_scheme t_port t_path].
  repeat (match goal with |- _ /\ _ => split end); try (intros ->; reflexivity); intros ? ->; reflexivity.
Qed.
(** C81: which transport an interaction asks for: that of its name, or else one of the names for its kind. *)
Theorem C81_wanted_transport : forall named otherwise t,
  wanted_transport named otherwise t = true <-> (named = Some t \/ named = None /\ In t otherwise).
Proof.
  intros named otherwise t. unfold wanted_transport. destruct named as [n|].
  - destruct (str_eqb_spec t n) as [->|Ne]; split; try discriminate; auto. intros [E|[E _]]; congruence.
  - rewrite existsb_exists. split.
    + intros (u & i & E). destruct (str_eqb_spec t u) as [->|]; [|discriminate]. right. auto.
    + intros [E|[_ i]]; [discriminate|]. exists t. split; [exact i|apply str_eqb_refl].
Qed.
Section Client.
Variable w : world.
Variable x : externals.
Variable cx : client_externals.
(** C81: the body that is sent: the bytes of the body; for a null body of JSON the text null; else none. *)
Theorem C81_body : forall r,
  native_body w x r =
    match req_body r with
    | BPresent s _ _ => Some s
    | BNull => if is_json (part_content_type w x (req_part r)) then Some [110; 117; 108; 108] else None
    | BMissing | BEmpty => None
    end.
Proof. intro r. unfold native_body. destruct (req_body r); reflexivity. Qed.

(** C81: the answer that is compared: the status, the headers with their values split at commas (but for the headers of
    one value) and trimmed, in order, without values that are no text; the bytes as body. *)
Definition split_values (name : str) (v : str) : list str :=
  if existsb (str_eqb (to_lower w name)) SINGLE_VALUE_HEADERS then [trim w v] else map (trim w) (split_on 44 v).
Theorem C81_answer : forall a,
  let r := pact_response w x a in
  resp_status r = nr_status a /\
  (nr_headers a = [] -> resp_headers r = None) /\
  (nr_headers a <> [] -> resp_headers r = Some (map (fun kv => (fst kv,
      concat (map (fun v => match v with Some v => split_values (fst kv) v | None => [] end) (snd kv)))) (nr_headers a))) /\
  (nr_body a = [] -> resp_body r = BEmpty) /\
  (nr_body a <> [] -> resp_body r = BPresent (nr_body a)
     (match lookup_header_value w (resp_headers r) (S_ "content-type") with Some v => parse_mime x v | None => None end) None).
Proof.
  intro a. cbv zeta. unfold pact_response. cbn [resp_status resp_headers resp_body]. split; [reflexivity|]. split; [intros ->; reflexivity|]. split; [|split].
  - intro N. unfold extract_headers. destruct (nr_headers a) as [|e l]; [contradiction|]. f_equal. apply map_ext. intros [k vs]. cbn [fst snd]. f_equal.
    unfold extract_header. clear N e l. induction vs as [|[v|] vs IH]; [reflexivity| |exact IH].
    cbn [somes flat_map app map concat]. change (flat_map (fun o => match o with Some a => [a] | None => [] end) vs) with (somes vs). rewrite map_app, IH. f_equal.
    unfold parse_header, split_values. change (str_in (to_lower w k) SINGLE_VALUE_HEADERS) with (existsb (str_eqb (to_lower w k)) SINGLE_VALUE_HEADERS).
    destruct (existsb (str_eqb (to_lower w k)) SINGLE_VALUE_HEADERS).
    + cbn [map]. rewrite trim_trim. reflexivity.
    + rewrite map_map. apply map_ext. intro. apply trim_trim.
  - intros ->. reflexivity.
  - intro N. destruct (nr_body a); [contradiction|]. reflexivity.
Qed.

(** C81: the metadata of a message: the content type of the answer under contentType, and what the header
    Pact-Message-Metadata, in any case, holds; that comes first. *)
Theorem C81_metadata : forall r,
  let content := JStr (match lookup_header_value w (resp_headers r) (S_ "content-type") with Some v => v | None => [] end) in
  ((forall k vs, In (k, vs) (match resp_headers r with Some h => h | None => [] end) -> to_lower w k <> S_ "pact-message-metadata") ->
    extract_metadata w cx r = [(S_ "contentType", content)]) /\
  (forall a k v vs b, resp_headers r = Some (a ++ (k, v :: vs) :: b) -> to_lower w k = S_ "pact-message-metadata" ->
    (forall k' vs', In (k', vs') (a ++ b) -> to_lower w k' <> S_ "pact-message-metadata") ->
    extract_metadata w cx r = fold_left (fun m kv => obj_insert (fst kv) (snd kv) m) (metadata_of cx v) [(S_ "contentType", content)]).
Proof.
  intro r. cbv zeta. unfold extract_metadata. change (or_nothing (lookup_header_value w (resp_headers r) (S_ "content-type"))) with (match lookup_header_value w (resp_headers r) (S_ "content-type") with Some v => v | None => [] end).
  generalize [(S_ "contentType", JStr match lookup_header_value w (resp_headers r) (S_ "content-type") with Some v => v | None => [] end)] as m.
  assert (forall (l : hmap), (forall k vs, In (k, vs) l -> to_lower w k <> S_ "pact-message-metadata") -> forall m,
    fold_left (fun m kv => if str_eqb (to_lower w (fst kv)) (S_ "pact-message-metadata") then insert_all_json (metadata_of cx (match snd kv with v :: _ => v | [] => [] end)) m else m) l m = m) as Skip.
  { induction l as [|[k vs] l IH]; intros H m; [reflexivity|]. cbn [fold_left fst snd].
    destruct (str_eqb_spec (to_lower w k) (S_ "pact-message-metadata")) as [E|_]; [exfalso; apply (H k vs (or_introl eq_refl) E)|]. apply IH. intros k' vs' i. apply (H k' vs'). right. exact i. }
  intro m. split.
  - intro H. apply Skip, H.
  - intros a k v vs b E K H. rewrite E, fold_left_app, (Skip a) by (intros k' vs' i; apply (H k' vs'), in_app_iff; left; exact i). cbn [fold_left fst snd]. rewrite K, str_eqb_refl.
    rewrite (Skip b) by (intros k' vs' i; apply (H k' vs'), in_app_iff; right; exact i). reflexivity.
Qed.
End Client.

(** C80: the description of a result. *)
Theorem C80_description : forall who i,
  result_description who i =
    S_ "Verifying a pact between " ++ consumer who ++ S_ " and " ++ provider who ++
    (match i_states i with [] => [] | l => S_ " Given " ++ join_with (S_ " And ") (map st_name l) end) ++ S_ " - " ++ i_desc i.
Proof.
  intros who i. unfold result_description. f_equal. f_equal. f_equal. f_equal. f_equal. destruct (i_states i) as [|s l]; [reflexivity|]. f_equal.
  revert s. induction l as [|s' l IH]; intro s.
  - cbn [flat_map map join_with]. apply app_nil_r.
  - cbn [flat_map]. specialize (IH s').
    change (join_with (S_ " And ") (map st_name (s :: s' :: l))) with (st_name s ++ S_ " And " ++ join_with (S_ " And ") (map st_name (s' :: l))). rewrite <- IH. rewrite <- app_assoc. reflexivity.
Qed.
