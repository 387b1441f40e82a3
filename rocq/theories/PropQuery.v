(** Properties C26, C27, C40, C41: query strings. *)
From Coq Require Import Ascii String List Arith NArith ZArith Lia Bool Sorted Permutation.
From Verif Require Import Base Json Text TextProofs QueryString SpecQuery QueryProofs.
Import ListNotations.
Open Scope N_scope.

(** ** C26: building and parsing *)
(** For names the builder writes unchanged: the query comes back exactly when its values are
    ASCII without control characters below U+0010. *)
Theorem C26_query_roundtrip : forall m, query_ok m -> exists s m',
  build_query_string m = Ok s /\ parse_query_string s = Some m' /\ same_map m' m.
Proof.
  intros m H. destruct (query_roundtrip m H) as [s [m' [A [B [_ C]]]]]. exists s, m'. auto.
Qed.
Theorem C26_query_comes_back_exactly_when : forall m, NoDup (map fst m) -> m <> [] ->
  (forall k vs, In (k, vs) m -> safe_name k /\ vs <> [] /\ forall s, In (Some s) vs -> forallb scalar s = true) ->
  ((exists s m', build_query_string m = Ok s /\ parse_query_string s = Some m' /\ same_map m' m) <->
   forall k vs s, In (k, vs) m -> In (Some s) vs -> two_digit_text s).
Proof. exact query_roundtrip_iff. Qed.
Definition sample_query : qmap :=
  [(S_ "q", [Some (S_ "a b&c=d+100%"); None; Some []]); (S_ "a.b[0]", [Some (S_ "~/x?{}")])].
Example sample_query_ok : query_ok sample_query.
Proof.
  unfold query_ok. split; [repeat constructor; cbn; intuition discriminate|]. split; [discriminate|].
  intros k vs [E|[E|[]]]; injection E as <- <-; (split; [split; [discriminate|] | split; [discriminate|]]).
  all: try (intros c I; cbn in I; repeat destruct I as [<-|I]; try contradiction; lia).
  - intros s [E|[E|[E|[]]]]; try discriminate; injection E as <-; intros c I; cbn in I;
      repeat destruct I as [<-|I]; try contradiction; lia.
  - intros s [E|[]]; injection E as <-; intros c I; cbn in I; repeat destruct I as [<-|I]; try contradiction; lia.
Qed.
Example C26_example : build_query_string sample_query = Ok (S_ "a.b[0]=%7e%2fx%3f%7b%7d&q=a+b%26c%3dd%2b100%25&q&q=") /\
  match parse_query_string (S_ "a.b[0]=%7e%2fx%3f%7b%7d&q=a+b%26c%3dd%2b100%25&q&q=") with
  | Some m' => entry (S_ "q") m' = entry (S_ "q") sample_query
  | None => False
  end.
Proof. split; vm_compute; reflexivity. Qed.
(** The full property (any names, any values) is false: a Latin-1 letter in a value
    is written as the code point and not as UTF-8 bytes. *)
Theorem C26_why_ascii :
  let m := [(S_ "name", [Some (S_ "caf" ++ [233])])] in
  exists s m', build_query_string m = Ok s /\ parse_query_string s = Some m' /\ ~ same_map m' m.
Proof.
  exists (S_ "name=caf%e9"), [(S_ "name", [Some (S_ "caf%e9")])].
  split; [vm_compute; reflexivity|]. split; [vm_compute; reflexivity|].
  intro H. specialize (H (S_ "name")). vm_compute in H. discriminate.
Qed.
(** Names are not encoded: an ampersand in a name splits it. *)
Theorem C26_why_safe_name :
  let m := [(S_ "a&b", [Some (S_ "1")])] in
  exists s m', build_query_string m = Ok s /\ parse_query_string s = Some m' /\ ~ same_map m' m.
Proof.
  exists (S_ "a&b=1"), [(S_ "a", [None]); (S_ "b", [Some (S_ "1")])].
  split; [vm_compute; reflexivity|]. split; [vm_compute; reflexivity|].
  intro H. specialize (H (S_ "a")). vm_compute in H. discriminate.
Qed.

(** ** C27: panics *)
(** Decoding returns for every string (the model function is total and has no panic
    case); parsing does too, and returns a map with different names. *)
Theorem C27_parsing_gives_a_map : forall s m, parse_query_string s = Some m ->
  NoDup (map fst m) /\ forall k vs, In (k, vs) m -> vs <> [].
Proof.
  intros s m H. unfold parse_query_string in H. destruct s as [|c s]; [discriminate|].
  revert H. generalize (split_on 38 (c :: s)). intros parts H. injection H as <-.
  assert (forall m0 : qmap, NoDup (keys m0) -> (forall k vs, In (k, vs) m0 -> vs <> []) ->
    NoDup (map fst (fold_left (fun m kv => match parse_pair kv with Some (n, v) => q_push n v m | None => m end) parts m0)) /\
    forall k vs, In (k, vs) (fold_left (fun m kv => match parse_pair kv with Some (n, v) => q_push n v m | None => m end) parts m0) -> vs <> []) as G.
  { induction parts as [|p parts IH]; intros m0 ND NE; [split; assumption|]. cbn [fold_left].
    destruct (parse_pair p) as [[n v]|]; [|apply IH; assumption]. apply IH; [apply q_push_keys, ND|].
    clear -NE. induction m0 as [|[k' vs'] m0 IH]; cbn [q_push]; intros k vs I.
    - destruct I as [E|[]]. injection E as <- <-. discriminate.
    - destruct (str_eqb n k'); destruct I as [E|I].
      + injection E as <- <-. destruct vs'; discriminate.
      + apply (NE k vs). right. exact I.
      + injection E as <- <-. apply (NE k' vs'). left. reflexivity.
      + apply (IH (fun a b J => NE a b (or_intror J)) k vs I). }
  apply (G []); [constructor | intros ? ? []].
Qed.
Example C27_parsing_example : exists m, parse_query_string (S_ "a=1&&b&a=%2&=%zz") = Some m.
Proof. eexists. vm_compute. reflexivity. Qed.
Theorem C27_encoding_panics_exactly_when : forall s, (forall c, In c s -> c < 1114112) ->
  (encode_query s = Panic <-> exists c, In c s /\ ~ unreserved c /\ odd_hex_length c) /\
  (encode_query s <> Panic -> exists r, encode_query s = Ok r).
Proof.
  intros s B. destruct (encode_cases s B) as [C1 C2]. split; [exact C1|]. intro N. destruct C2; [contradiction | assumption].
Qed.
Example C27_example : encode_query (S_ "caf" ++ [233; 8364]) = Ok (S_ "caf%e9%20%ac") /\ encode_query [10] = Panic.
Proof. split; vm_compute; reflexivity. Qed.
(** So the property as stated (never a panic) is false for encoding: a line feed. *)
Theorem C27_why_digits : exists s, s = S_ "a" ++ [10] /\ encode_query s = Panic.
Proof. eexists. split; [reflexivity|]. vm_compute. reflexivity. Qed.

(** ** C40: decoding *)
Theorem C40_decoding_inverts_any_encoding : forall s q,
  (forall c, In c s -> scalar c = true) -> encodes (utf8 s) q -> decode_query q = Some s.
Proof.
  intros s q S E. unfold decode_query. rewrite (encodes_decode _ _ E).
  apply from_utf8_utf8. apply forallb_forall. exact S.
Qed.
Example C40_example : decode_query (S_ "caf%C3%a9+x%20y/z") = Some (S_ "caf" ++ [233] ++ S_ " x y/z").
Proof. vm_compute. reflexivity. Qed.
Example C40_encodes : encodes (utf8 [233; 32]) (S_ "%C3%a9+").
Proof.
  change (S_ "%C3%a9+") with [37; 67; 51; 37; 97; 57; 43].
  change (utf8 [233; 32]) with [12 * 16 + 3; 10 * 16 + 9; 32].
  apply enc_pct; [apply (digit_up 12); lia | apply (digit_dec 3); lia |].
  apply enc_pct; [apply (digit_low 10); lia | apply (digit_dec 9); lia |]. repeat constructor.
Qed.
(** Parsing a query string whose parts are written by any client. *)
Theorem C40_parsing_any_encoding : forall kvs parts, kvs <> [] ->
  (forall k v, In (k, v) kvs -> (forall c, In c k -> scalar c = true) /\
    forall s, v = Some s -> forall c, In c s -> scalar c = true) ->
  Forall2 (part_for utf8) kvs parts ->
  exists m, parse_query_string (join_with [38] parts) = Some m /\
    forall k, entry k m = match values_of k kvs with [] => None | vs => Some vs end.
Proof.
  intros kvs parts NE SC F.
  assert (Forall2 reads kvs parts) as R.
  { clear NE. induction F as [|[k v] part kvs parts P F IH]; constructor;
      [|apply IH; intros; apply SC; right; assumption].
    destruct (SC k v (or_introl eq_refl)) as [SK SV]. destruct P as [a [Ea [N38 [N61 P]]]]. cbn [fst snd] in *.
    assert (decode_or_raw a = k) as Da by (unfold decode_or_raw; rewrite (C40_decoding_inverts_any_encoding k a SK Ea); reflexivity).
    destruct v as [s|].
    - destruct P as [b [Eb [Nb ->]]]. repeat split.
      + unfold parse_pair. destruct (a ++ 61 :: b) eqn:E; [destruct a; discriminate|]. rewrite <- E.
        rewrite split_once_app by exact N61. rewrite Da. unfold decode_or_raw.
        rewrite (C40_decoding_inverts_any_encoding s b (SV s eq_refl) Eb). reflexivity.
      + rewrite in_app_iff. intros [I|[I|I]]; [contradiction | lia | contradiction].
      + destruct a; discriminate.
    - destruct P as [Na ->]. repeat split; [|exact N38 | exact Na].
      unfold parse_pair. destruct a as [|c a'] eqn:E; [congruence|]. rewrite <- E in *.
      rewrite (proj2 (split_once_none 61 a) N61). rewrite Da. reflexivity. }
  exists (fold_left (fun m kv => q_push (fst kv) (snd kv) m) kvs []). split.
  - unfold parse_query_string. destruct (join_with [38] parts) as [|c s] eqn:J.
    { exfalso. clear SC F. inversion R as [|kv p l l' Q R' E1 E2]; subst; [apply NE; reflexivity|]. destruct Q as [_ [_ NP]].
      destruct l'; cbn [join_with] in J; destruct p; discriminate || congruence. }
    rewrite <- J. rewrite split_join.
    + rewrite (parse_parts parts kvs [] R). reflexivity.
    + intros ->. inversion R; subst. apply NE; reflexivity.
    + clear -R. induction R as [|kv p ? ? Q R IH]; constructor; [apply Q | exact IH].
  - intro k. rewrite entry_get, push_all. cbn [obj_get]. destruct (values_of k kvs); reflexivity.
Qed.
Example C40_parsing_example : part_for utf8 ([233], Some (S_ "x=1")) (S_ "%C3%A9=x=1").
Proof.
  exists (S_ "%C3%A9"). split; [|split; [cbn; intuition lia | split; [cbn; intuition lia|]]].
  - change (encodes [12 * 16 + 3; 10 * 16 + 9] [37; 67; 51; 37; 65; 57]).
    apply enc_pct; [apply (digit_up 12); lia | apply (digit_dec 3); lia |].
    apply enc_pct; [apply (digit_up 10); lia | apply (digit_dec 9); lia | constructor].
  - exists (S_ "x=1"). split; [|split; [cbn; intuition lia | reflexivity]]. vm_compute. repeat (apply enc_raw; [lia | lia | lia |]). constructor.
Qed.
(** Any text at all: [read_as] gives its bytes, and the result is the text they are the UTF-8 form of. *)
Theorem C40_decoding_any_text : forall q, exists bs, read_as q bs /\
  (forall bs', read_as q bs' -> bs' = bs) /\
  (forall s, decode_query q = Some s <-> bs = utf8 s /\ forall c, In c s -> scalar c = true).
Proof.
  intro q. exists (decode_bytes q). split; [apply read_as_decodes|]. split; [intros; apply read_as_unique; assumption|].
  intro s. unfold decode_query. split.
  - intro H. apply from_utf8_inv in H as [E S]. split; [exact E|]. apply forallb_forall, S.
  - intros [-> S]. apply from_utf8_utf8, forallb_forall, S.
Qed.
Example C40_read_as_example : read_as (S_ "%4+%zz%C3%A9%") [37; 52; 43; 37; 122; 122; 195; 169; 37].
Proof.
  change (S_ "%4+%zz%C3%A9%") with [37; 52; 43; 37; 122; 122; 37; 67; 51; 37; 65; 57; 37].
  apply (rd_bad 52 43); [intros h l _ D; apply digit_of_value in D; discriminate D|]. apply (rd_bad 122 122); [intros h l D; apply digit_of_value in D; discriminate D|].
  apply (rd_pct 12 3 67 51); [apply (digit_up 12); lia|apply (digit_dec 3); lia|].
  apply (rd_pct 10 9 65 57); [apply (digit_up 10); lia|apply (digit_dec 9); lia|]. apply rd_end.
Qed.
(** So a character that is not ASCII and not encoded is cut down to eight bits. *)
Theorem C40_why_encoded : decode_query [321] = Some (S_ "A").
Proof. vm_compute. reflexivity. Qed.

(** ** C41: the V3 form *)
Theorem C41_v3_query_roundtrip : forall w m, NoDup (map fst m) ->
  exists m', v3_query_from_json w (query_to_json m) = Some m' /\ same_map m' m.
Proof.
  intros w m ND. unfold query_to_json. eexists. split; [reflexivity|]. intro k. rewrite !entry_get.
  rewrite (obj_get_map json (list (option str)) (fun v => match v with
      | JStr s => [Some s]
      | JArr l => map (fun i => match i with JStr s => Some s | JNull => None | _ => Some (json_show w v) end) l
      | _ => []
      end)).
  rewrite (fold_insert_get_all _ _ (fun vs => JArr (map (fun q => match q with None => JNull | Some s => JStr s end) vs)) m [] k ND).
  match goal with |- _ = ?r => destruct r as [vs|] eqn:E end.
  - assert (obj_get k m = Some vs) as -> by exact E. f_equal. rewrite map_map. rewrite <- (map_id vs) at 2.
    apply map_ext. intros [s|]; reflexivity.
  - assert (obj_get k m = None) as -> by exact E. reflexivity.
Qed.
Example C41_example : forall w, v3_query_from_json w (query_to_json sample_query) =
  Some [(S_ "a.b[0]", [Some (S_ "~/x?{}")]); (S_ "q", [Some (S_ "a b&c=d+100%"); None; Some []])].
Proof. intro w. vm_compute. reflexivity. Qed.
(** Numbers in the array of a hand-written pact file: each becomes the text of the whole array. *)
Theorem C41_why_strings : forall w,
  v3_query_from_json w (JObj [(S_ "a", JArr [JNum (PosInt 1); JNum (PosInt 2)])]) =
  Some [(S_ "a", [Some (S_ "[1,2]"); Some (S_ "[1,2]")])].
Proof. intro w. vm_compute. reflexivity. Qed.
