(** Proofs about query strings (QueryString.v). *)
From Coq Require Import Ascii String List Arith NArith ZArith Lia Bool Sorted Permutation.
From Coq Require Import ZifyBool ZifyN ZifyNat.
From Verif Require Import Base Json Text TextProofs QueryString SpecQuery.
Import ListNotations.
Open Scope N_scope.
Ltac Zify.zify_post_hook ::= Z.div_mod_to_equations.

Lemma entry_get : forall A k (m : list (str * A)), entry k m = obj_get k m.
Proof.
  induction m as [|[k' v] m IH]; [reflexivity|]. cbn. rewrite IH. reflexivity.
Qed.

(** * Encoding *)
Lemma hex_digits_short : forall c, c < 16 -> hex_digits c = [hex_digit c].
Proof.
  intros c H. unfold hex_digits. cbn [hex_digits_aux]. destruct (N.eqb_spec (c / 16) 0) as [E|E]; [|lia].
  replace (c mod 16) with c by lia. reflexivity.
Qed.
Lemma hex_digits_two : forall c, 16 <= c < 256 -> hex_digits c = [hex_digit (c / 16); hex_digit (c mod 16)].
Proof.
  intros c H. unfold hex_digits. cbn [hex_digits_aux].
  destruct (N.eqb_spec (c / 16) 0) as [E|E]; [lia|].
  destruct (N.eqb_spec (c / 16 / 16) 0) as [E1|E1]; [|lia].
  replace (c / 16 mod 16) with (c / 16) by lia. reflexivity.
Qed.
Lemma hex_len : forall f n acc, length (hex_digits_aux f n acc) = (length (hex_digits_aux f n []) + length acc)%nat.
Proof.
  induction f as [|f IH]; intros n acc; [reflexivity|]. cbn [hex_digits_aux].
  destruct (n / 16 =? 0); [reflexivity|]. rewrite IH, (IH _ [_]). cbn [length]. lia.
Qed.
(** The number of digits. *)
Lemma hex_digits_length : forall c, c < 1114112 ->
  length (hex_digits c) =
    (if c <? 16 then 1%nat else if c <? 256 then 2%nat else if c <? 4096 then 3%nat
     else if c <? 65536 then 4%nat else if c <? 1048576 then 5%nat else 6%nat).
Proof.
  intros c H. unfold hex_digits. cbn [hex_digits_aux].
  destruct (N.eqb_spec (c / 16) 0); [destruct (N.ltb_spec c 16); [reflexivity|lia]|].
  destruct (N.eqb_spec (c / 16 / 16) 0); [destruct (N.ltb_spec c 16); [lia|]; destruct (N.ltb_spec c 256); [reflexivity|lia]|].
  rewrite !N.div_div by lia. cbn [N.mul Pos.mul].
  destruct (N.ltb_spec c 16); [exfalso; lia|]. destruct (N.ltb_spec c 256); [exfalso; lia|].
  change (16 * 16) with 256 in *. change (256 * 16) with 4096 in *. change (4096 * 16) with 65536 in *. change (65536 * 16) with 1048576 in *.
  destruct (N.eqb_spec (c / 4096) 0); [destruct (N.ltb_spec c 4096); [reflexivity|exfalso; lia]|].
  destruct (N.ltb_spec c 4096); [exfalso; lia|].
  destruct (N.eqb_spec (c / 65536) 0); [destruct (N.ltb_spec c 65536); [reflexivity|exfalso; lia]|].
  destruct (N.ltb_spec c 65536); [exfalso; lia|].
  destruct (N.eqb_spec (c / 1048576) 0); [destruct (N.ltb_spec c 1048576); [reflexivity|exfalso; lia]|].
  destruct (N.ltb_spec c 1048576); [exfalso; lia|].
  destruct (_ =? 0); reflexivity.
Qed.

Lemma pairs_even : forall n ds, length ds = (2 * n)%nat -> exists r, percent_pairs ds = Ok r.
Proof.
  induction n as [|n IH]; intros ds L.
  - destruct ds; [|cbn in L; lia]. exists []. reflexivity.
  - destruct ds as [|a [|b ds]]; cbn [length] in L; try lia. destruct (IH ds) as [r E]; [lia|].
    exists (37 :: a :: b :: r). cbn [percent_pairs]. rewrite E. reflexivity.
Qed.
Lemma pairs_odd : forall n ds, length ds = (2 * n + 1)%nat -> percent_pairs ds = Panic.
Proof.
  induction n as [|n IH]; intros ds L.
  - destruct ds as [|a [|b ds]]; cbn [length] in L; try lia. reflexivity.
  - destruct ds as [|a [|b ds]]; cbn [length] in L; try lia. cbn [percent_pairs]. rewrite IH by lia. reflexivity.
Qed.

Lemma plain_unreserved : forall c, (c =? 32) || plain_char c = true <-> unreserved c.
Proof. intro c. unfold plain_char, unreserved, is_lower, is_upper, is_digit. lia. Qed.

Lemma encode_char_cases : forall c, c < 1114112 ->
  (encode_char c = Panic <-> ~ unreserved c /\ odd_hex_length c) /\
  (encode_char c = Panic \/ exists r, encode_char c = Ok r).
Proof.
  intros c B. unfold encode_char. rewrite <- plain_unreserved. unfold odd_hex_length.
  destruct (N.eqb_spec c 32) as [E|E]; [cbn [orb]; split; [split; [discriminate | intros [H _]; congruence] | eauto]|].
  cbn [orb]. destruct (plain_char c) eqn:P; [split; [split; [discriminate | intros [H _]; congruence] | eauto]|].
  pose proof (hex_digits_length c B) as L.
  destruct (N.ltb_spec c 16). { pose proof (pairs_odd 0 _ L) as ->. split; [split; [intros _; split; [congruence|lia] | reflexivity] | auto]. }
  destruct (N.ltb_spec c 256). { destruct (pairs_even 1 _ L) as [r ->]. split; [split; [discriminate | intros [_ H1]; exfalso; lia] | eauto]. }
  destruct (N.ltb_spec c 4096). { pose proof (pairs_odd 1 _ L) as ->. split; [split; [intros _; split; [congruence|lia] | reflexivity] | auto]. }
  destruct (N.ltb_spec c 65536). { destruct (pairs_even 2 _ L) as [r ->]. split; [split; [discriminate | intros [_ H3]; exfalso; lia] | eauto]. }
  destruct (N.ltb_spec c 1048576). { pose proof (pairs_odd 2 _ L) as ->. split; [split; [intros _; split; [congruence|lia] | reflexivity] | auto]. }
  destruct (pairs_even 3 _ L) as [r ->]. split; [split; [discriminate | intros [_ H5]; exfalso; lia] | eauto].
Qed.
Lemma encode_cases : forall s, (forall c, In c s -> c < 1114112) ->
  (encode_query s = Panic <-> exists c, In c s /\ ~ unreserved c /\ odd_hex_length c) /\
  (encode_query s = Panic \/ exists r, encode_query s = Ok r).
Proof.
  induction s as [|c s IH]; intro B.
  - split; [split; [discriminate | intros [c [[] _]]] | right; exists []; reflexivity].
  - destruct (encode_char_cases c (B c (or_introl eq_refl))) as [C1 C2].
    destruct IH as [I1 I2]; [intros; apply B; right; assumption|]. cbn [encode_query].
    destruct C2 as [Ec|[r Ec]]; rewrite Ec; cbn [bind].
    { split; [|auto]. split; [|reflexivity]. intros _. exists c. split; [left; reflexivity | apply C1, Ec]. }
    destruct I2 as [Es|[r' Es]]; rewrite Es; cbn [bind].
    + split; [|auto]. split; [|reflexivity]. intros _. destruct (proj1 I1 Es) as [x [I X]]. exists x. split; [right|]; assumption.
    + split; [|eauto]. split; [discriminate|]. intros [x [[<-|I] X]].
      * apply C1 in X. congruence.
      * assert (encode_query s = Panic) by (apply I1; eauto). congruence.
Qed.

(** * Decoding what was encoded *)
Lemma hex_value_digit : forall d, d < 16 -> hex_value (hex_digit d) = Some d.
Proof.
  intros d H. unfold hex_value, hex_digit, is_digit. destruct (N.ltb_spec d 10).
  - destruct ((48 <=? 48 + d) && (48 + d <=? 57)) eqn:E; [f_equal; lia | lia].
  - destruct ((48 <=? 87 + d) && (87 + d <=? 57)) eqn:E; [lia|].
    destruct ((97 <=? 87 + d) && (87 + d <=? 102)) eqn:E1; [f_equal; lia | lia].
Qed.
Lemma encode_char_decode : forall c, 16 <= c < 256 -> exists r,
  encode_char c = Ok r /\ (forall s, decode_bytes (r ++ s) = c :: decode_bytes s) /\ ~ In 38 r.
Proof.
  intros c H. unfold encode_char. destruct (N.eqb_spec c 32) as [->|E].
  { exists [43]. split; [reflexivity|]. split; [reflexivity|]. intros [X|[]]. lia. }
  destruct (plain_char c) eqn:P.
  { exists [c]. split; [reflexivity|]. unfold plain_char, is_lower, is_upper, is_digit in P. split.
    - intro s. cbn [app decode_bytes]. destruct (N.eqb_spec c 37); [lia|]. destruct (N.eqb_spec c 43); [lia|].
      replace (c mod 256) with c by lia. reflexivity.
    - intros [X|[]]. lia. }
  rewrite hex_digits_two by exact H. exists [37; hex_digit (c / 16); hex_digit (c mod 16)].
  split; [reflexivity|]. split.
  - intro s. cbn [app decode_bytes]. change (37 =? 37) with true. cbv iota.
    rewrite !hex_value_digit by lia. f_equal. lia.
  - intros [X|[X|[X|[]]]]; [lia| |]; unfold hex_digit in X.
    + destruct (N.ltb_spec (c / 16) 10); lia.
    + destruct (N.ltb_spec (c mod 16) 10); lia.
Qed.
Lemma encode_decode_bytes : forall s, (forall c, In c s -> 16 <= c < 256) -> exists r,
  encode_query s = Ok r /\ decode_bytes r = s /\ ~ In 38 r.
Proof.
  induction s as [|c s IH]; intro H; [exists []; repeat split; auto|].
  destruct (encode_char_decode c (H c (or_introl eq_refl))) as [a [E1 [E2 E3]]].
  destruct IH as [r [F1 [F2 F3]]]; [intros; apply H; right; assumption|].
  exists (a ++ r). cbn [encode_query]. rewrite E1, F1. cbn [bind]. split; [reflexivity|].
  split; [rewrite E2, F2; reflexivity|]. rewrite in_app_iff. tauto.
Qed.

Lemma decode_plain : forall s, (forall c, In c s -> c < 128 /\ c <> 37 /\ c <> 43) -> decode_bytes s = s.
Proof.
  induction s as [|c s IH]; intro H; [reflexivity|]. destruct (H c (or_introl eq_refl)) as [B [N1 N2]]. cbn [decode_bytes].
  destruct (N.eqb_spec c 37); [congruence|]. destruct (N.eqb_spec c 43); [congruence|].
  rewrite IH by (intros; apply H; right; assumption). f_equal. lia.
Qed.
Lemma from_utf8_ascii : forall s, (forall c, In c s -> c < 128) -> from_utf8 s = Some s.
Proof.
  intros s H. assert (forallb (fun c => c <? 128) s = true) as F by (apply forallb_forall; intros; apply N.ltb_lt, H; assumption).
  rewrite <- (utf8_ascii s F) at 1. apply from_utf8_utf8, scalar_ascii, F.
Qed.

(** * The map that is read *)
Lemma q_push_get : forall k v m j,
  obj_get j (q_push k v m) = if str_eqb j k then Some (match obj_get k m with Some l => l | None => [] end ++ [v]) else obj_get j m.
Proof.
  induction m as [|[k' vs] m IH]; intro j.
  - cbn. destruct (str_eqb j k); reflexivity.
  - cbn [q_push]. destruct (str_eqb_spec k k') as [<-|N].
    + cbn [obj_get]. rewrite str_eqb_refl. destruct (str_eqb j k); reflexivity.
    + cbn [obj_get]. rewrite IH. apply str_eqb_neq in N. rewrite N.
      destruct (str_eqb_spec j k') as [->|N']; [|reflexivity].
      rewrite str_eqb_sym, N. reflexivity.
Qed.
Lemma q_push_keys : forall k v m, NoDup (keys m) -> NoDup (keys (q_push k v m)).
Proof.
  assert (forall k v (m : qmap) j, In j (keys (q_push k v m)) <-> j = k \/ In j (keys m)) as K.
  { intros k v m j. induction m as [|[k' vs] m IH]; cbn; [intuition|].
    destruct (str_eqb_spec k k') as [<-|N]; cbn; [intuition|]. rewrite IH. intuition. }
  intros k v m. induction m as [|[k' vs] m IH]; intro ND; cbn.
  - constructor; [auto | constructor].
  - inversion ND; subst. destruct (str_eqb_spec k k') as [<-|N]; cbn; [exact ND|].
    constructor; [|apply IH; assumption]. intro I. apply K in I. destruct I as [->|I]; contradiction.
Qed.
(** Pushing a list of pairs: the values of a name are its values in order. *)
Lemma push_all : forall l m k,
  obj_get k (fold_left (fun m kv => q_push (fst kv) (snd kv) m) l m) =
  match obj_get k m, values_of k l with
  | None, [] => None
  | None, vs => Some vs
  | Some a, vs => Some (a ++ vs)
  end.
Proof.
  induction l as [|[k' v] l IH]; intros m k; cbn [fold_left].
  - destruct (obj_get k m); [rewrite app_nil_r|]; reflexivity.
  - rewrite IH. cbn [fst snd]. rewrite q_push_get. unfold values_of. cbn [filter fst].
    destruct (str_eqb_spec k k') as [<-|N].
    + cbn [map snd]. destruct (obj_get k m); [rewrite <- app_assoc|]; reflexivity.
    + reflexivity.
Qed.
Lemma push_all_keys : forall l m, NoDup (keys m) -> NoDup (keys (fold_left (fun m kv => q_push (fst kv) (snd kv) m) l m)).
Proof. induction l as [|[k v] l IH]; intros m H; [exact H|]. cbn. apply IH, q_push_keys, H. Qed.

(** The pairs of a map, in order. *)
Definition pairs_of (m : qmap) : list (str * option str) := flat_map (fun kv => map (pair (fst kv)) (snd kv)) m.
Lemma values_of_app : forall k a b, values_of k (a ++ b) = values_of k a ++ values_of k b.
Proof. intros. unfold values_of. rewrite filter_app, map_app. reflexivity. Qed.
Lemma values_of_same : forall k vs, values_of k (map (pair k) vs) = vs.
Proof.
  intros k vs. unfold values_of. induction vs as [|v vs IH]; [reflexivity|]. cbn. rewrite str_eqb_refl. cbn. f_equal. exact IH.
Qed.
Lemma values_of_other : forall k k' vs, k <> k' -> values_of k (map (pair k') vs) = [].
Proof.
  intros k k' vs N. unfold values_of. apply str_eqb_neq in N. induction vs as [|v vs IH]; [reflexivity|]. cbn. rewrite N. exact IH.
Qed.
Lemma pairs_get : forall m, NoDup (keys m) -> (forall k vs, In (k, vs) m -> vs <> []) -> forall k,
  obj_get k m = match values_of k (pairs_of m) with [] => None | vs => Some vs end.
Proof.
  induction m as [|[k' vs] m IH]; intros ND NE k; [reflexivity|]. inversion ND as [|? ? NI ND']; subst.
  cbn [obj_get pairs_of flat_map fst snd]. rewrite values_of_app. fold (pairs_of m).
  specialize (IH ND' (fun k0 v0 I => NE k0 v0 (or_intror I))).
  destruct (str_eqb_spec k k') as [->|N].
  - rewrite values_of_same. specialize (IH k'). apply obj_get_none in NI. rewrite NI in IH.
    assert (values_of k' (pairs_of m) = []) as -> by (destruct (values_of k' (pairs_of m)); congruence).
    rewrite app_nil_r. pose proof (NE k' vs (or_introl eq_refl)). destruct vs; congruence.
  - rewrite values_of_other by exact N. apply IH.
Qed.

(** * Sorting *)
Lemma sort_entries_sorted : forall A (m : list (str * A)), StronglySorted str_lt (keys (sort_entries m)).
Proof. induction m as [|[k v] m IH]; cbn; [constructor|]. apply obj_insert_sorted, IH. Qed.
Lemma sort_entries_get : forall A (m : list (str * A)) k, obj_get k (sort_entries m) = obj_get k m.
Proof.
  induction m as [|[k' v] m IH]; intro k; [reflexivity|]. unfold sort_entries. cbn [fold_right fst snd]. fold (@sort_entries A).
  rewrite obj_insert_get. cbn [obj_get]. rewrite IH. reflexivity.
Qed.

(** * Build and parse *)
Lemma mapM_o_ok : forall A B E (f : A -> outcome B E) (P : A -> B -> Prop) l,
  (forall x, In x l -> exists y, f x = Ok y /\ P x y) -> exists ys, mapM_o f l = Ok ys /\ Forall2 P l ys.
Proof.
  induction l as [|x l IH]; intro H; [exists []; split; [reflexivity | constructor]|].
  destruct (H x (or_introl eq_refl)) as [y [E1 E2]]. destruct IH as [ys [F1 F2]]; [intros; apply H; right; assumption|].
  exists (y :: ys). cbn. rewrite E1. cbn. fold (mapM_o f). rewrite F1. cbn. split; [reflexivity | constructor; assumption].
Qed.

(** The part of the query string for one pair. *)
Definition reads (kv : str * option str) (part : str) : Prop :=
  parse_pair part = Some kv /\ ~ In 38 part /\ part <> [].
Lemma build_pair_reads : forall k v, safe_name k -> (forall s, v = Some s -> two_digit_text s) ->
  exists part, build_pair k v = Ok part /\ reads (k, v) part.
Proof.
  intros k v [NE SK] SV.
  assert (decode_or_raw k = k) as DK.
  { unfold decode_or_raw, decode_query. rewrite decode_plain by (intros c I; specialize (SK c I); tauto).
    rewrite from_utf8_ascii by (intros c I; apply SK, I). reflexivity. }
  assert (~ In 61 k) as N61 by (intro I; specialize (SK _ I); tauto).
  assert (~ In 38 k) as N38 by (intro I; specialize (SK _ I); tauto).
  destruct v as [s|].
  - specialize (SV s eq_refl). destruct (encode_decode_bytes s) as [r [E1 [E2 E3]]].
    { intros c I. specialize (SV c I). lia. }
    exists (k ++ [61] ++ r). cbn [build_pair]. rewrite E1. split; [reflexivity|]. repeat split.
    + unfold parse_pair. destruct (k ++ [61] ++ r) eqn:E; [destruct k; discriminate|]. rewrite <- E. cbn [app].
      rewrite split_once_app by exact N61. rewrite DK. unfold decode_or_raw, decode_query. rewrite E2.
      rewrite from_utf8_ascii; [reflexivity|]. intros c I. specialize (SV c I). lia.
    + rewrite in_app_iff. cbn. intros [I|[I|I]]; [contradiction | lia | contradiction].
    + destruct k; discriminate.
  - exists k. split; [reflexivity|]. repeat split; [|exact N38 | exact NE].
    unfold parse_pair. destruct k as [|c k'] eqn:E; [congruence|]. rewrite <- E in *.
    rewrite (proj2 (split_once_none 61 k) N61). rewrite DK. reflexivity.
Qed.

Lemma parse_parts : forall parts kvs m, Forall2 reads kvs parts ->
  fold_left (fun m kv => match parse_pair kv with Some (n, v) => q_push n v m | None => m end) parts m =
  fold_left (fun m kv => q_push (fst kv) (snd kv) m) kvs m.
Proof.
  intros parts kvs m F. revert m. induction F as [|[k v] p kvs parts [R _] F IH]; intro m; [reflexivity|].
  cbn [fold_left fst snd]. rewrite R. apply IH.
Qed.

Lemma build_parts : forall l : qmap,
  (forall k vs, In (k, vs) l -> safe_name k /\ forall s, In (Some s) vs -> two_digit_text s) ->
  exists parts, mapM_o (fun kv => mapM_o (build_pair (fst kv)) (snd kv)) l = Ok parts /\
    Forall2 reads (pairs_of l) (concat parts).
Proof.
  intros l H.
  destruct (mapM_o_ok _ _ unit (fun kv : str * list (option str) => mapM_o (build_pair (fst kv)) (snd kv))
             (fun kv ps => Forall2 reads (map (pair (fst kv)) (snd kv)) ps) l) as [parts [E F]].
  { intros [k vs] I. destruct (H k vs I) as [SK SV]. cbn [fst snd].
    destruct (mapM_o_ok _ _ unit (build_pair k) (fun v p => reads (k, v) p) vs) as [ps [E1 F1]].
    { intros v Iv. apply build_pair_reads; [exact SK|]. intros s ->. apply SV, Iv. }
    exists ps. split; [exact E1|]. clear -F1. induction F1; cbn; constructor; auto. }
  exists parts. split; [exact E|]. clear -F. induction F as [|kv ps l parts R F IH]; cbn; [constructor|].
  apply Forall2_app; assumption.
Qed.

Theorem query_roundtrip : forall m, query_ok m -> exists s m',
  build_query_string m = Ok s /\ parse_query_string s = Some m' /\ NoDup (map fst m') /\ same_map m' m.
Proof.
  intros m [ND [NE H]].
  assert (filter (fun kv : str * list (option str) => match fst kv with [] => false | _ => true end) m = m) as FM.
  { clear ND NE. induction m as [|[k vs] m IH]; [reflexivity|]. cbn [filter fst].
    destruct (H k vs (or_introl eq_refl)) as [[NK _] _]. destruct k; [congruence|]. f_equal. apply IH. intros; apply H; right; assumption. }
  unfold build_query_string. match goal with |- context [filter ?f m] => replace (filter f m) with m by (symmetry; exact FM) end. set (l := sort_entries m).
  assert (forall k vs, In (k, vs) l -> In (k, vs) m) as IL.
  { intros k vs I. apply obj_get_in. rewrite <- sort_entries_get. apply obj_get_nodup; [|exact I].
    apply sorted_nodup, sort_entries_sorted. }
  destruct (build_parts l) as [parts [E F]].
  { intros k vs I. destruct (H k vs (IL k vs I)) as [A [_ B]]. split; assumption. }
  rewrite E. cbn [bind]. eexists _, (fold_left (fun m kv => q_push (fst kv) (snd kv) m) (pairs_of l) []). split; [reflexivity|].
  assert (concat parts <> []) as NC.
  { intro C. rewrite C in F. inversion F as [P|]. symmetry in P.
    destruct m as [|[k vs] m']; [congruence|]. destruct (H k vs (or_introl eq_refl)) as [_ [NV _]].
    assert (obj_get k l = Some vs) as G by (unfold l; rewrite sort_entries_get; cbn; rewrite str_eqb_refl; reflexivity).
    rewrite pairs_get in G; [rewrite P in G; discriminate | apply sorted_nodup, sort_entries_sorted |].
    intros k0 v0 I. apply (H k0 v0), IL, I. }
  split; [|split].
  - unfold parse_query_string. destruct (join_with [38] (concat parts)) as [|c s] eqn:J.
    { exfalso. destruct (concat parts) as [|p ps]; [congruence|]. inversion F as [|kv ? ? ? R]; subst. destruct R as [_ [_ NP]].
      destruct ps; cbn [join_with] in J; destruct p; discriminate || congruence. }
    rewrite <- J. rewrite split_join; [|exact NC|].
    + rewrite (parse_parts (concat parts) (pairs_of l) [] F). reflexivity.
    + clear -F. induction F as [|kv p ? ? R F IH]; constructor; [apply R | exact IH].
  - apply (push_all_keys (pairs_of l) []). constructor.
  - intro k. rewrite !entry_get. rewrite push_all. cbn [obj_get]. etransitivity; [|apply sort_entries_get]. change (sort_entries m) with l.
    rewrite (pairs_get l); [destruct (values_of k (pairs_of l)); reflexivity | apply sorted_nodup, sort_entries_sorted |].
    intros k0 v0 I. apply (H k0 v0), IL, I.
Qed.

(** * Which values survive *)
Definition hex_char (c : N) : bool := is_digit c || ((97 <=? c) && (c <=? 102)).
Lemma hex_digit_char : forall d, d < 16 -> hex_char (hex_digit d) = true.
Proof. intros d H. unfold hex_char, hex_digit, is_digit. destruct (N.ltb_spec d 10); lia. Qed.
Lemma hex_digits_chars : forall c, forallb hex_char (hex_digits c) = true.
Proof.
  intro c. unfold hex_digits. assert (forallb hex_char [] = true) as A by reflexivity. revert c A. generalize 6%nat (@nil N).
  induction n as [|n IH]; intros l c A; [exact A|]. cbn [hex_digits_aux].
  assert (forallb hex_char (hex_digit (c mod 16) :: l) = true) as A' by (cbn [forallb]; rewrite hex_digit_char by lia; exact A).
  destruct (c / 16 =? 0); [exact A'|]. apply IH, A'.
Qed.
Lemma hex_char_value : forall c, hex_char c = true -> exists d, hex_value c = Some d.
Proof.
  intros c H. unfold hex_char in H. unfold hex_value. destruct (is_digit c); [eauto|]. cbn [orb] in H. rewrite H. eauto.
Qed.
Lemma pairs_bytes : forall n ds r, length ds = (2 * n)%nat -> forallb hex_char ds = true -> percent_pairs ds = Ok r ->
  (forall c, In c r -> c < 128 /\ c <> 38) /\
  forall s, exists bs, length bs = n /\ decode_bytes (r ++ s) = bs ++ decode_bytes s.
Proof.
  induction n as [|n IH]; intros ds r L H E.
  - destruct ds; [|cbn in L; lia]. injection E as <-. split; [intros ? []|]. intro s. exists []. split; reflexivity.
  - destruct ds as [|a [|b ds]]; cbn [length] in L; try lia. cbn [forallb] in H. rewrite !andb_true_iff in H. destruct H as (Ha & Hb & H).
    cbn [percent_pairs] in E. destruct (percent_pairs ds) as [r'| |] eqn:P; try discriminate. cbn [bind] in E. injection E as <-.
    destruct (IH ds r' ltac:(lia) H P) as [I1 I2]. split.
    + unfold hex_char, is_digit in Ha, Hb. intros c [<-|[<-|[<-|Ic]]]; [lia|lia|lia|apply I1, Ic].
    + intro s. destruct (I2 s) as (bs & Lb & Eb). destruct (hex_char_value a Ha) as [x Hx], (hex_char_value b Hb) as [y Hy].
      exists (x * 16 + y :: bs). split; [cbn [length]; lia|]. cbn [app decode_bytes]. change (37 =? 37) with true. cbv iota. rewrite Hx, Hy, Eb. reflexivity.
Qed.
Lemma encode_char_bytes : forall c r, scalar c = true -> encode_char c = Ok r ->
  (forall x, In x r -> x < 128 /\ x <> 38) /\
  forall s, exists bs, decode_bytes (r ++ s) = bs ++ decode_bytes s /\
    (length bs <= length (utf8_char c))%nat /\ (128 <= c -> (length bs < length (utf8_char c))%nat).
Proof.
  intros c r Sc E. pose proof (scalar_bound c Sc) as B. unfold encode_char in E.
  destruct (N.eqb_spec c 32) as [->|N32].
  { injection E as <-. split; [intros x [<-|[]]; lia|]. intro s. exists [32]. split; [reflexivity|]. split; [cbn; lia|lia]. }
  destruct (plain_char c) eqn:P.
  { injection E as <-. unfold plain_char, is_lower, is_upper, is_digit in P. split; [intros x [<-|[]]; lia|].
    intro s. exists [c mod 256]. split.
    - cbn [app decode_bytes]. destruct (N.eqb_spec c 37); [lia|]. destruct (N.eqb_spec c 43); [lia|]. reflexivity.
    - split; [unfold utf8_char; destruct (c <? 128); [cbn; lia|]; destruct (c <? 2048); [cbn; lia|]; destruct (c <? 65536); cbn; lia|lia]. }
  pose proof (hex_digits_length c B) as L. pose proof (hex_digits_chars c) as H.
  assert (exists n, length (hex_digits c) = (2 * n)%nat /\ (n <= length (utf8_char c))%nat /\ (128 <= c -> (n < length (utf8_char c))%nat)) as (n & Ln & L1 & L2).
  { unfold utf8_char. destruct (N.ltb_spec c 16). { rewrite (pairs_odd 0 _ L) in E. discriminate. }
    destruct (N.ltb_spec c 256). { exists 1%nat. split; [exact L|]. destruct (N.ltb_spec c 128); [cbn; lia|]. destruct (N.ltb_spec c 2048); [cbn; lia|lia]. }
    destruct (N.ltb_spec c 4096). { rewrite (pairs_odd 1 _ L) in E. discriminate. }
    destruct (N.ltb_spec c 65536). { exists 2%nat. split; [exact L|]. destruct (N.ltb_spec c 128); [lia|]. destruct (N.ltb_spec c 2048); [lia|]. cbn; lia. }
    destruct (N.ltb_spec c 1048576). { rewrite (pairs_odd 2 _ L) in E. discriminate. }
    exists 3%nat. split; [exact L|]. destruct (N.ltb_spec c 128); [lia|]. destruct (N.ltb_spec c 2048); [lia|]. cbn; lia. }
  destruct (pairs_bytes n _ r Ln H E) as [I1 I2]. split; [exact I1|]. intro s. destruct (I2 s) as (bs & Lb & Eb).
  exists bs. split; [exact Eb|]. rewrite Lb. split; assumption.
Qed.
Lemma encode_bytes : forall s r, forallb scalar s = true -> encode_query s = Ok r ->
  (forall x, In x r -> x < 128 /\ x <> 38) /\
  (length (decode_bytes r) <= length (utf8 s))%nat /\
  ((exists c, In c s /\ 128 <= c) -> (length (decode_bytes r) < length (utf8 s))%nat).
Proof.
  induction s as [|c s IH]; intros r Sc E.
  - injection E as <-. split; [intros ? []|]. split; [cbn; lia|]. intros [c [[] _]].
  - cbn [forallb] in Sc. apply andb_true_iff in Sc as [Sc Ss]. cbn [encode_query] in E.
    destruct (encode_char c) as [a| |] eqn:Ec; try discriminate. cbn [bind] in E.
    destruct (encode_query s) as [b| |] eqn:Es; try discriminate. cbn [bind] in E. injection E as <-.
    destruct (encode_char_bytes c a Sc Ec) as [A1 A2]. destruct (IH b Ss eq_refl) as (B1 & B2 & B3).
    destruct (A2 b) as (bs & Eb & L1 & L2). split; [intros x I; apply in_app_or in I; destruct I; auto|].
    rewrite Eb. change (utf8 (c :: s)) with (utf8_char c ++ utf8 s). rewrite !app_length. split; [lia|].
    intros [x [[<-|I] X]]; [specialize (L2 X); lia|]. specialize (B3 (ex_intro _ x (conj I X))). lia.
Qed.
(** What a value becomes by encoding and decoding. *)
Lemma value_survives : forall s r, forallb scalar s = true -> encode_query s = Ok r ->
  (decode_or_raw r = s <-> two_digit_text s).
Proof.
  intros s r Sc E. destruct (encode_bytes s r Sc E) as (B1 & B2 & B3). split.
  - intro D.
    assert (forall c, In c s -> c < 128) as A.
    { intros c I. destruct (N.ltb_spec c 128) as [L|L]; [exact L|]. exfalso.
      specialize (B3 (ex_intro _ c (conj I L))). unfold decode_or_raw in D. destruct (decode_query r) as [d|] eqn:Q.
      - subst d. unfold decode_query in Q. apply from_utf8_inv in Q as [Q _]. rewrite Q in B3. lia.
      - subst r. specialize (B1 c I). lia. }
    intros c I. specialize (A c I). split; [|exact A]. destruct (N.ltb_spec c 16) as [L|L]; [|exact L]. exfalso.
    assert (encode_query s = Panic) as P.
    { apply encode_cases. { intros x Ix. rewrite forallb_forall in Sc. apply scalar_bound, Sc, Ix. }
      exists c. split; [exact I|]. split; [unfold unreserved; lia|left; exact L]. }
    congruence.
  - intro T. destruct (encode_decode_bytes s) as [r' [E1 [E2 _]]]; [intros c I; specialize (T c I); lia|].
    rewrite E in E1. injection E1 as <-. unfold decode_or_raw, decode_query. rewrite E2.
    rewrite from_utf8_ascii; [reflexivity|]. intros c I. specialize (T c I). lia.
Qed.
Definition reread (v : option str) : option str :=
  match v with None => None | Some s => match encode_query s with Ok r => Some (decode_or_raw r) | _ => None end end.
Definition reread_all (l : qmap) : qmap := map (fun kv => (fst kv, map reread (snd kv))) l.
Lemma mapM_o_inv : forall A B E (f : A -> outcome B E) l ys, mapM_o f l = Ok ys -> Forall2 (fun x y => f x = Ok y) l ys.
Proof.
  induction l as [|x l IH]; intros ys H; cbn in H; [injection H as <-; constructor|].
  destruct (f x) eqn:Fx; try discriminate. cbn [bind] in H. fold (mapM_o f) in H. destruct (mapM_o f l) eqn:Fl; try discriminate.
  cbn [bind] in H. injection H as <-. constructor; [exact Fx | apply IH; reflexivity].
Qed.
Lemma build_pair_rereads : forall k v p, safe_name k -> (forall s, v = Some s -> forallb scalar s = true) ->
  build_pair k v = Ok p -> reads (k, reread v) p.
Proof.
  intros k v p [NE SK] SV E.
  assert (decode_or_raw k = k) as DK.
  { unfold decode_or_raw, decode_query. rewrite decode_plain by (intros c I; specialize (SK c I); tauto).
    rewrite from_utf8_ascii by (intros c I; apply SK, I). reflexivity. }
  assert (~ In 61 k) as N61 by (intro I; specialize (SK _ I); tauto).
  assert (~ In 38 k) as N38 by (intro I; specialize (SK _ I); tauto).
  destruct v as [s|]; cbn [build_pair] in E.
  - specialize (SV s eq_refl). destruct (encode_query s) as [r| |] eqn:Es; try discriminate. cbn [bind] in E. injection E as <-.
    destruct (encode_bytes s r SV Es) as [B1 _]. unfold reread. rewrite Es. repeat split.
    + unfold parse_pair. cbn [app]. destruct (k ++ 61 :: r) eqn:E; [destruct k; discriminate|]. rewrite <- E.
      rewrite split_once_app by exact N61. rewrite DK. reflexivity.
    + rewrite in_app_iff. cbn. intros [I|[I|I]]; [contradiction | lia | specialize (B1 _ I); lia].
    + destruct k; discriminate.
  - injection E as <-. repeat split; [|exact N38 | exact NE].
    unfold parse_pair. destruct k as [|c k'] eqn:E; [congruence|]. rewrite <- E in *.
    rewrite (proj2 (split_once_none 61 k) N61). rewrite DK. reflexivity.
Qed.
Lemma obj_get_reread : forall l k, obj_get k (reread_all l) = match obj_get k l with Some vs => Some (map reread vs) | None => None end.
Proof. induction l as [|[k' vs] l IH]; intro k; cbn; [reflexivity|]. rewrite IH. destruct (str_eqb k k'); reflexivity. Qed.

Theorem query_roundtrip_iff : forall m, NoDup (map fst m) -> m <> [] ->
  (forall k vs, In (k, vs) m -> safe_name k /\ vs <> [] /\ forall s, In (Some s) vs -> forallb scalar s = true) ->
  ((exists s m', build_query_string m = Ok s /\ parse_query_string s = Some m' /\ same_map m' m) <->
   forall k vs s, In (k, vs) m -> In (Some s) vs -> two_digit_text s).
Proof.
  intros m ND NE H. split.
  2:{ intro T. destruct (query_roundtrip m) as (s & m' & A & B & _ & C); [|eauto].
      split; [exact ND|]. split; [exact NE|]. intros k vs I. destruct (H k vs I) as (A & B & _). split; [exact A|]. split; [exact B|].
      intros s Is. eapply T; eassumption. }
  intros (s & m' & Bd & Ps & Sm).
  assert (filter (fun kv : str * list (option str) => match fst kv with [] => false | _ => true end) m = m) as FM.
  { clear -H. induction m as [|[k vs] m IH]; [reflexivity|]. cbn [filter fst].
    destruct (H k vs (or_introl eq_refl)) as [[NK _] _]. destruct k; [congruence|]. f_equal. apply IH. intros; apply H; right; assumption. }
  unfold build_query_string in Bd. match type of Bd with context [filter ?f m] => replace (filter f m) with m in Bd by (symmetry; exact FM) end.
  set (l := sort_entries m) in *.
  assert (forall k vs, In (k, vs) l -> In (k, vs) m) as IL.
  { intros k vs I. apply obj_get_in. rewrite <- sort_entries_get. apply obj_get_nodup; [|exact I]. apply sorted_nodup, sort_entries_sorted. }
  change (sort_entries m) with l in Bd. match type of Bd with bind ?X _ = _ => destruct X as [parts| |] eqn:M end; try discriminate. cbn [bind] in Bd. injection Bd as <-.
  assert (Forall2 reads (pairs_of (reread_all l)) (concat parts)) as F.
  { apply mapM_o_inv in M. clear -M H IL. revert IL. induction M as [|[k vs] ps l parts R F IH]; intro IL; [constructor|].
    cbn [reread_all map pairs_of flat_map fst snd concat]. apply Forall2_app; [|apply IH; intros; apply IL; right; assumption].
    destruct (H k vs (IL _ _ (or_introl eq_refl))) as (SK & _ & SV). cbn [fst snd] in R. apply mapM_o_inv in R.
    clear -R SK SV. induction R as [|v p vs ps E R IH]; cbn [map]; [constructor|]. constructor.
    - apply build_pair_rereads; [exact SK| |exact E]. intros s ->. apply SV. left; reflexivity.
    - apply IH. intros s I. apply SV. right; exact I. }
  assert (Kl : keys (reread_all l) = keys l) by (unfold keys, reread_all; rewrite map_map; reflexivity).
  assert (NDl : NoDup (keys (reread_all l))) by (rewrite Kl; apply sorted_nodup, sort_entries_sorted).
  assert (NEl : forall k vs, In (k, vs) (reread_all l) -> vs <> []).
  { intros k vs I. apply in_map_iff in I as ([k0 v0] & E & I). injection E as <- <-. destruct (H _ _ (IL _ _ I)) as (_ & NV & _). destruct v0; [destruct (NV eq_refl)|discriminate]. }
  assert (m' = fold_left (fun m kv => q_push (fst kv) (snd kv) m) (pairs_of (reread_all l)) []) as ->.
  { unfold parse_query_string in Ps. destruct (join_with [38] (concat parts)) as [|c s] eqn:J; [discriminate|]. rewrite <- J in Ps.
    rewrite split_join in Ps.
    - rewrite (parse_parts _ _ [] F) in Ps. injection Ps as <-. reflexivity.
    - intros C. rewrite C in J. discriminate.
    - clear -F. induction F as [|kv p ? ? R F IH]; constructor; [apply R | exact IH]. }
  intros k vs s I Is. specialize (Sm k). rewrite !entry_get, push_all in Sm. cbn [obj_get] in Sm.
  assert (obj_get k (reread_all l) = obj_get k m) as G by (etransitivity; [|exact Sm]; rewrite (pairs_get _ NDl NEl); destruct (values_of k _); reflexivity).
  rewrite obj_get_reread in G. unfold l in G. rewrite sort_entries_get in G. rewrite (obj_get_nodup _ _ _ _ ND I) in G. injection G as G.
  assert (reread (Some s) = Some s) as R.
  { clear -G Is. revert G Is. induction vs as [|v vs IH]; intros G Is; [destruct Is|]. injection G as G1 G2. destruct Is as [->|Is]; [exact G1|apply IH; assumption]. }
  destruct (H k vs I) as (_ & _ & SV). unfold reread in R. destruct (encode_query s) as [r| |] eqn:Es; try discriminate. injection R as R.
  apply (value_survives s r (SV s Is) Es), R.
Qed.

(** * Decoding any standard encoding *)
Lemma digit_of_value : forall d x, digit_of d x -> hex_value x = Some d.
Proof.
  intros d x H. inversion H; subst; unfold hex_value, is_digit.
  - destruct ((48 <=? 48 + d) && (48 + d <=? 57)) eqn:E; [f_equal; lia | lia].
  - destruct ((48 <=? 87 + d) && (87 + d <=? 57)) eqn:E; [lia|].
    destruct ((97 <=? 87 + d) && (87 + d <=? 102)) eqn:E1; [f_equal; lia | lia].
  - destruct ((48 <=? 55 + d) && (55 + d <=? 57)) eqn:E; [lia|].
    destruct ((97 <=? 55 + d) && (55 + d <=? 102)) eqn:E1; [lia|].
    destruct ((65 <=? 55 + d) && (55 + d <=? 70)) eqn:E2; [f_equal; lia | lia].
Qed.
Lemma encodes_decode : forall bs q, encodes bs q -> decode_bytes q = bs.
Proof.
  induction 1 as [|b bs q B N1 N2 H IH|h l x y bs q Hh Hl H IH|bs q H IH]; [reflexivity| | |].
  - cbn [decode_bytes]. destruct (N.eqb_spec b 37); [congruence|]. destruct (N.eqb_spec b 43); [congruence|].
    rewrite IH. f_equal. lia.
  - cbn [decode_bytes]. change (37 =? 37) with true. cbv iota. rewrite (digit_of_value _ _ Hh), (digit_of_value _ _ Hl), IH. reflexivity.
  - cbn [decode_bytes]. change (43 =? 37) with false. change (43 =? 43) with true. cbv iota. rewrite IH. reflexivity.
Qed.

(** * JSON *)
Lemma fold_insert_get_all : forall A B (f : A -> B) (m : list (str * A)) acc k, NoDup (keys m) ->
  obj_get k (fold_left (fun acc kv => obj_insert (fst kv) (f (snd kv)) acc) m acc) =
  match obj_get k m with Some v => Some (f v) | None => obj_get k acc end.
Proof.
  intros A B f. induction m as [|[k' v] m IH]; intros acc k ND; [reflexivity|].
  inversion ND as [|? ? NI ND']; subst. cbn [fold_left fst snd]. rewrite IH by assumption.
  rewrite obj_insert_get. cbn [obj_get]. destruct (str_eqb_spec k k') as [->|N]; [|reflexivity].
  apply obj_get_none in NI. rewrite NI. reflexivity.
Qed.
Lemma obj_get_map : forall A B (f : A -> B) (m : list (str * A)) k,
  obj_get k (map (fun kv => (fst kv, f (snd kv))) m) = match obj_get k m with Some v => Some (f v) | None => None end.
Proof. induction m as [|[k' v] m IH]; intro k; [reflexivity|]. cbn. rewrite IH. destruct (str_eqb k k'); reflexivity. Qed.

Lemma hex_value_digit_of : forall x d, hex_value x = Some d -> digit_of d x.
Proof.
  intros x d H. unfold hex_value, is_digit in H.
  destruct ((48 <=? x) && (x <=? 57)) eqn:E1; [injection H as <-; replace x with (48 + (x - 48)) at 2 by lia; apply digit_dec; lia|].
  destruct ((97 <=? x) && (x <=? 102)) eqn:E2; [injection H as <-; replace x with (87 + (x - 87)) at 2 by lia; apply digit_low; lia|].
  destruct ((65 <=? x) && (x <=? 70)) eqn:E3; [injection H as <-; replace x with (55 + (x - 55)) at 2 by lia; apply digit_up; lia|discriminate].
Qed.
Lemma read_as_decodes : forall q, read_as q (decode_bytes q).
Proof.
  intro q. assert (forall n q, (length q <= n)%nat -> read_as q (decode_bytes q)) as G; [|apply (G (length q)); lia].
  clear q. induction n as [|n IH]; intros q L; [destruct q; [constructor|cbn in L; lia]|].
  destruct q as [|c q]; [constructor|]. cbn [length] in L. cbn [decode_bytes].
  destruct (N.eqb_spec c 37) as [->|N1].
  - destruct q as [|x [|y q]]; [constructor|constructor|]. cbn [length] in L.
    assert (read_as q (decode_bytes q)) as R by (apply IH; lia).
    destruct (hex_value x) as [h|] eqn:Hx; [destruct (hex_value y) as [l|] eqn:Hy|].
    + apply rd_pct; [apply hex_value_digit_of, Hx|apply hex_value_digit_of, Hy|exact R].
    + apply rd_bad; [|exact R]. intros h' l _ D. apply digit_of_value in D. congruence.
    + apply rd_bad; [|exact R]. intros h l D _. apply digit_of_value in D. congruence.
  - destruct (N.eqb_spec c 43) as [->|N2]; [apply rd_plus, IH; lia|]. apply rd_char; [exact N1|exact N2|apply IH; lia].
Qed.
Lemma read_as_unique : forall q bs, read_as q bs -> bs = decode_bytes q.
Proof.
  induction 1 as [|h l x y q bs Hx Hy R IH|x y q bs Nd R IH|x| |q bs R IH|c q bs N1 N2 R IH]; subst; try reflexivity.
  - cbn [decode_bytes]. change (37 =? 37) with true. cbv iota. rewrite (digit_of_value _ _ Hx), (digit_of_value _ _ Hy). reflexivity.
  - cbn [decode_bytes]. change (37 =? 37) with true. cbv iota. destruct (hex_value x) as [h|] eqn:Ex; [|reflexivity].
    destruct (hex_value y) as [l|] eqn:Ey; [|reflexivity]. destruct (Nd h l); apply hex_value_digit_of; assumption.
  - cbn [decode_bytes]. destruct (N.eqb_spec c 37); [congruence|]. destruct (N.eqb_spec c 43); [congruence|]. reflexivity.
Qed.
