(** C112, C113: concrete messages and pacts. *)
From Coq Require Import Ascii String List Arith NArith ZArith Lia Bool Permutation Sorted.
From Verif Require Import Base PathExp Json Text MatchingRules Matchers JsonCompare SpecMatch Headers Query ContentType SpecHeaders SpecHttp Http PropHttp PropHttp2 Pattern SpecPattern PropPattern PropPattern2 PropPattern3
  Expr Generators Builder SpecBuilder PropBuilder3 Merge PactFile OldFile MessageBuilder PropMessage SpecMessageBuilder PropMessageBuilder PropMessageBuilder2 PropMessageBuilder3 PropMessageBuilder4.
Import ListNotations.
Open Scope N_scope.
Local Opaque show_N.

Definition ex_calls : list async_call :=
  [MAbout (AGiven (S_ "an order")); MAbout (AComment (S_ "note")); MMeta (S_ "topic") (JStr (S_ "a")); MBytes (S_ "old") None;
   MAbout (AKey (S_ "k1")); MMeta (S_ "topic") (JStr (S_ "b")); MJsonBody id_pattern; MAbout (AKey (S_ "k2")); MAbout (APending true)].
Definition json_message (s t : string) : message := mkMsg (BPresent (S_ s) (Some ex_json_ct) None) [(S_ "topic", JStr (S_ t))] [].
Definition verdict (o : outcome (list request_mismatch) unit) : bool := match o with Ok [] => true | _ => false end.
Lemma shuffled_refl : forall m, shuffled m m.
Proof. intro m. induction m as [|c m IH]; constructor; [|exact IH]. repeat (apply conj); reflexivity. Qed.
Lemma same_refl : forall m, same_message m m.
Proof. intro m. repeat (apply conj); try reflexivity. apply shuffled_refl. Qed.
Lemma no_types : forall m, (forall k v, In (k, v) m -> str_eqb (ascii_lower k) (S_ "contenttype") || str_eqb (ascii_lower k) (S_ "content-type") = false) ->
  readable_metadata (is_space digits_world) m.
Proof. intros m H k v J Z. apply content_type_key_iff in Z. rewrite (H k v J) in Z. discriminate. Qed.
(** A described message that meets what the theorems ask for, what it accepts and what it does not. *)
Theorem C112_example : exists i b,
  build_async digits_world dsl_ext (S_ "m") ex_calls = Ok i /\ f_payload i = FAsync (b, []) /\ same_message b b /\
  f_key i = Some (S_ "k2") /\ x_pending (f_extra i) = true /\ f_states i = [mkState (S_ "an order") []] /\
  pattern_given digits_world dsl_ext id_pattern (async_calls digits_world dsl_ext ex_calls) /\
  proper id_pattern /\ untied id_pattern /\ (depth id_pattern <= 57)%nat /\
  json_type (content_type_of dsl_ext (S_ "application/json")) /\
  json_of_bytes dsl_ext (utf8 (json_show digits_world (to_example id_pattern))) = Some (to_example id_pattern) /\
  Http.message_content_type digits_world dsl_ext (json_message "{""id"":7}" "b") = content_type_of dsl_ext (S_ "application/json") /\
  readable_metadata (is_space digits_world) (msg_metadata b) /\ readable_metadata (is_space digits_world) (msg_metadata (json_message "{""id"":7}" "b")) /\
  verdict (match_message digits_world dsl_ext b (json_message "{""id"":7}" "b")) = true /\
  verdict (match_message digits_world dsl_ext b (json_message "{""id"":7}" "a")) = false /\
  verdict (match_message digits_world dsl_ext b (json_message "{""id"":""x""}" "b")) = false.
Proof.
  destruct C107_example as (_ & _ & _ & _ & Pr & Un & De & _ & _ & _ & _ & JT & JE & _).
  eexists _, _. split; [vm_compute; reflexivity|]. split; [reflexivity|]. split; [apply same_refl|]. split; [reflexivity|]. split; [reflexivity|]. split; [reflexivity|].
  split. { split; [reflexivity|]. split; [reflexivity|]. exists [CMeta (S_ "topic") (JStr (S_ "a")); CBytes (S_ "old") None; CMeta (S_ "topic") (JStr (S_ "b"))], []. split; reflexivity. }
  split; [exact Pr|]. split; [exact Un|]. split; [exact De|]. split; [exact JT|]. split; [exact JE|]. split; [reflexivity|].
  split; [apply no_types; intros k v [J|[]]; injection J as <- <-; reflexivity|].
  split; [apply no_types; intros k v [J|[]]; injection J as <- <-; reflexivity|].
  vm_compute. repeat (apply conj); reflexivity.
Qed.
Definition ex_sync : list sync_call :=
  [SAbout (AGivenWith (S_ "a user") (JObj [(S_ "n", num 1)])); SRequestMetadata (S_ "topic") (JStr (S_ "b")); SRequestJson id_pattern;
   SResponseJson id_pattern; SResponseBody (S_ "ok") (Some (S_ "text/plain")); SResponseContents (json_message "{""id"":7}" "c") [(GcBody, [(path_root, GUuid None)])]].
(** A described synchronous message: two responses more than the first, in order; the generators of the last are not kept. *)
Theorem C112_sync_example : exists i q rs,
  build_sync digits_world dsl_ext (S_ "s") ex_sync = Ok i /\ f_payload i = FSync (q, []) rs /\ length rs = 3%nat /\
  f_states i = [mkState (S_ "a user") [(S_ "n", num 1)]] /\
  pattern_given digits_world dsl_ext id_pattern (request_parts digits_world dsl_ext ex_sync) /\
  nth_error (responses_said digits_world dsl_ext ex_sync) 0 = Some (RSJson id_pattern) /\
  nth_error (responses_said digits_world dsl_ext ex_sync) 1 = Some (RSBytes (S_ "ok") (Some (S_ "text/plain"))) /\
  map snd rs = [[]; []; []] /\
  let a t := [json_message "{""id"":7}" "x"; mkMsg (BPresent (S_ "ok") (Some (content_type_of dsl_ext (S_ "text/plain"))) None) [(t, JStr (S_ "text/plain"))] []; json_message "{""id"":7}" "c"] in
  verdict (match_sync_message digits_world dsl_ext (q, map fst rs) (json_message "{""id"":7}" "b", a (S_ " contentType"))) = true /\
  verdict (match_sync_message digits_world dsl_ext (q, map fst rs) (json_message "{""id"":7}" "b", a (S_ "contentType"))) = false.
Proof.
  eexists _, _, _. split; [vm_compute; reflexivity|]. split; [reflexivity|]. split; [reflexivity|]. split; [reflexivity|].
  split. { split; [reflexivity|]. split; [reflexivity|]. exists [CMeta (S_ "topic") (JStr (S_ "b"))], []. split; reflexivity. }
  split; [reflexivity|]. split; [reflexivity|]. split; [reflexivity|]. vm_compute. repeat (apply conj); reflexivity.
Qed.
(** Findings: a body set again keeps the content type and the rules of the one before; contents given as JSON forget the metadata. *)
Theorem C112_body_set_twice :
  let exact := PObject [(S_ "id", PJson (JStr (S_ "x")))] in
  let ok calls b := match build_async digits_world dsl_ext (S_ "m") calls with
                    | Ok i => match f_payload i with FAsync m => verdict (match_message digits_world dsl_ext (fst m) (json_message b "b")) | _ => false end | _ => false end in
  ok [MJsonBody exact] "{""id"":""y""}"%string = false /\ ok [MJsonBody id_pattern; MJsonBody exact] "{""id"":""y""}"%string = true.
Proof. vm_compute. apply conj; reflexivity. Qed.
Theorem C112_type_of_first_body : metadata_said [CBytes (S_ "a") (Some (S_ "text/plain")); CBytes (S_ "b") (Some (S_ "text/html"))] (S_ "contentType") = Some (JStr (S_ "text/plain")).
Proof. reflexivity. Qed.
Theorem C112_contents_from_forgets : forall b k v l, metadata_said (CMeta k v :: l ++ [CReset b]) k = None.
Proof.
  intros b k v l. unfold metadata_said. change (CMeta k v :: l ++ [CReset b]) with ((CMeta k v :: l) ++ [CReset b]). rewrite since_snoc. cbn [sets_everything values_said types_said flat_map last_of].
  destruct (str_eqb k _); reflexivity.
Qed.

(** ** A pact *)
Definition ex_pact : list pact_call :=
  [BInteraction (S_ "i") [AGiven (S_ "x"); ATransport (S_ "https")] [RMethod (S_ "PUT")] []; BMessage (S_ "m") ex_calls; BSyncMessage (S_ "s") ex_sync; BMessage (S_ "n") []].
Definition no_one : participants := mkWho (S_ "c") (S_ "p").
Theorem C113_example : exists p, pact_steps digits_world dsl_ext (AV4 (mkVF no_one [] [] [])) ex_pact = Ok (AV4 p) /\
  map f_desc (vf_ints p) = [S_ "i"; S_ "m"; S_ "s"; S_ "n"] /\
  map (option_map f_desc) (iter_take 4 (async_messages p)) = [Some (S_ "m"); Some (S_ "n"); None; None] /\
  map (option_map f_desc) (iter_take 2 (sync_messages p)) = [Some (S_ "s"); None].
Proof. eexists. split; [vm_compute; reflexivity|]. vm_compute. repeat (apply conj); reflexivity. Qed.
(** A pact of HTTP interactions does not take a message: describing one panics. *)
Theorem C113_refused : pact_steps digits_world dsl_ext (AHttp (mkHP no_one [] [] SV3)) ex_pact = Panic /\
  exists p, pact_steps digits_world dsl_ext (AHttp (mkHP no_one [] [] SV3)) (firstn 1 ex_pact) = Ok (AHttp p) /\ map h_desc (hp_ints p) = [S_ "i"].
Proof. split; [vm_compute; reflexivity|]. eexists. split; vm_compute; reflexivity. Qed.
