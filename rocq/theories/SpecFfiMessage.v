(** Specification of the calls of the C interface for messages and metadata. *)
From Coq Require Import Ascii String List Arith NArith ZArith Lia Bool.
From Verif Require Import Base PathExp Json Text MatchingRules Matchers Headers ContentType SpecQuery Http Expr Generators RuleExpr Integration SpecIntegration
  FormJson XmlJson SpecXmlJson Merge PactFile Handles FfiBody SpecFfiBody FfiMessage.
Import ListNotations.
Open Scope N_scope.

Section Message.
Variable w : world.
Variable x : externals.
Variable junk : str -> nat.
Variable print_xml : option xtree -> list N.
Variable parse : str -> option json.

(** The bytes the contents become, and the rules and generators of the contents after the call: [s] is the text, [raw] the bytes. *)
Inductive contents_become (s : str) (raw : list N) (t : content_type) (r : xcategory) (g : generators) : list N -> xcategory -> generators -> Prop :=
| cb_xml : forall m root gs r' g', is_xml t = true -> json_of_bytes x (utf8 s) = Some (JObj m) ->
    body_described w junk m root gs -> rules_after gs r r' -> gens_after gs (generator_at GcBody g) (generator_at GcBody g') -> other_gens_kept g g' ->
    contents_become s raw t r g (print_xml root) r' g'
| cb_lost : is_xml t = true -> (forall m, json_of_bytes x (utf8 s) <> Some (JObj m)) -> contents_become s raw t r g [] r g
| cb_json : forall v v' occs r' g', is_xml t = false -> is_text t = true \/ is_json t = true ->
    json_of_bytes x (utf8 s) = Some v -> container v -> reading w junk exactly [] v v' occs ->
    rules_added path_root occs r r' -> gens_added path_root occs (generator_at GcBody g) (generator_at GcBody g') -> other_gens_kept g g' ->
    contents_become s raw t r g (utf8 (json_show w v')) r' g'
| cb_text : is_xml t = false -> is_text t = true \/ is_json t = true -> (forall v, json_of_bytes x (utf8 s) = Some v -> ~ container v) ->
    contents_become s raw t r g (utf8 s) r g
| cb_bytes : is_xml t = false -> is_text t = false -> is_json t = false -> contents_become s raw t r g raw r g.
(** After a call with a type, a text and bytes. *)
Inductive contents_set (ct text : option str) (raw : list N) (m m' : xmsg) : Prop :=
| cs_typed : forall t bytes, parse_mime x (match ct with Some t => t | None => S_ "text/plain" end) = Some t ->
    contents_become (match text with Some s => s | None => [] end) raw t (xm_rules m) (xm_gens m) bytes (xm_rules m') (xm_gens m') ->
    xm_body m' = BPresent bytes (Some t) None -> xm_meta m' = xm_meta m -> xm_meta_rules m' = xm_meta_rules m -> contents_set ct text raw m m'
| cs_untyped : parse_mime x (match ct with Some t => t | None => S_ "text/plain" end) = None ->
    m' = mkXM (BPresent raw None None) (xm_meta m) (xm_rules m) (xm_meta_rules m) (xm_gens m) -> contents_set ct text raw m m'.

(** ** Metadata *)
(** What a value leaves in the metadata. *)
Inductive leaves : mvalue -> option json -> Prop :=
| lv_removed : leaves VNull None
| lv_text : forall s, parse s = None -> leaves (VText s) (Some (JStr s))
| lv_scalar : forall s v, parse s = Some v -> ~ container v -> leaves (VText s) (Some v)
| lv_read : forall s v v' occs, parse s = Some v -> container v -> reading w junk exactly [] v v' occs -> leaves (VText s) (Some v').
(** The rules and generators of the metadata: those of the matchers in the value are added at the path of the name. *)
Inductive leaves_rules (key : str) : mvalue -> xcategory -> generators -> xcategory -> generators -> Prop :=
| lr_none : forall v r g, (forall s j, v = VText s -> parse s = Some j -> ~ container j) -> leaves_rules key v r g r g
| lr_read : forall s v v' occs p r g r' g', parse s = Some v -> container v -> path_new_w w key = Ok p -> reading w junk exactly [] v v' occs ->
    rules_added p occs r r' -> gens_added p occs (generator_at GcMetadata g) (generator_at GcMetadata g') ->
    (forall c q, c <> GcMetadata -> generator_at c g' q = generator_at c g q) ->
    leaves_rules key (VText s) r g r' g'.
Record meta_set (key : str) (v : mvalue) (m m' : xmsg) : Prop := mkSet {
  ms_body : xm_body m' = xm_body m;
  ms_rules : xm_rules m' = xm_rules m;
  ms_others : forall k, k <> key -> entry k (xm_meta m') = entry k (xm_meta m);
  ms_value : leaves v (entry key (xm_meta m'));
  ms_meta_rules : leaves_rules key v (xm_meta_rules m) (xm_gens m) (xm_meta_rules m') (xm_gens m') }.
(** Every message of a side changes. *)
Inductive on_messages (R : xmsg -> xmsg -> Prop) : side -> xint -> xint -> Prop :=
| om_message : forall s m m', R m m' -> on_messages R s (XAsync m) (XAsync m')
| om_request : forall q q' l, R q q' -> on_messages R Request (XSync q l) (XSync q' l)
| om_responses : forall q l l', Forall2 R l l' -> on_messages R Response (XSync q l) (XSync q l').
Definition messages_of (s : side) (i : xint) : list xmsg :=
  match i, s with
  | XHttp _, _ => []
  | XAsync m, _ => [m]
  | XSync q _, Request => [q]
  | XSync _ l, Response => l
  end.
Definition is_http_int (i : xint) : Prop := exists v, i = XHttp v.

(** Calls one after the other. *)
Record meta_call := mkCall { mc_key : str; mc_value : mvalue; mc_side : side }.
Inductive calls_run : list meta_call -> xint -> xint -> Prop :=
| cr_none : forall i, calls_run [] i i
| cr_call : forall c cs i i1 i2 ok, with_metadata w junk parse false (Some (mc_key c)) (mc_value c) (mc_side c) i = Ok (i1, ok) ->
    calls_run cs i1 i2 -> calls_run (c :: cs) i i2.
(** A call about the name on that side that is not refused. *)
Definition about (i : xint) (c : meta_call) (s : side) (k : str) : Prop :=
  mc_key c = k /\ mc_value c <> VBad /\ (mc_side c = s \/ exists m, i = XAsync m).
End Message.

(** ** Metadata of the pact *)
Inductive pact_call := PMeta (ns name value : option str) | MMeta (ns name value : option str).
Definition pact_step (i : inner) (c : pact_call) : inner :=
  match c with
  | PMeta ns n v => fst (with_pact_metadata ns n v i)
  | MMeta ns n v => with_message_pact_metadata ns n v i
  end.
Definition pact_calls (i : inner) (cs : list pact_call) : inner := fold_left pact_step cs i.
(** The text under a name in a namespace. *)
Definition held (ns name : str) (i : inner) : option json :=
  match obj_get ns (vp_meta (in_pact i)) with Some (JObj o) => obj_get name o | _ => None end.
Definition read_only (ns : str) : Prop := ns = S_ "pactRust" \/ ns = S_ "pactSpecification".
Definition text_or_empty (o : option str) (s : str) : Prop := o = Some s \/ (o = None /\ s = []).
(** What a call leaves under the name in the namespace: the older call replaces the whole namespace. *)
Inductive puts : pact_call -> str -> str -> option str -> Prop :=
| pu_named : forall o p q ns n v, text_or_empty o ns -> text_or_empty p n -> text_or_empty q v -> ns <> [] -> ~ read_only ns -> puts (PMeta o p q) ns n (Some v)
| pu_old : forall o p q ns n v, text_or_empty o ns -> text_or_empty p n -> text_or_empty q v -> ns <> [] -> puts (MMeta o p q) ns n (Some v)
| pu_dropped : forall o p q ns n n', text_or_empty o ns -> text_or_empty p n -> ns <> [] -> n' <> n -> puts (MMeta o p q) ns n' None.
Definition touches (c : pact_call) (ns : str) : Prop := exists n v, puts c ns n (Some v).
