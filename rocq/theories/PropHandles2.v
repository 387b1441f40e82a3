(** C64, C65: query parameters and headers set one value at a time through the C interface. *)
From Coq Require Import Ascii String List Arith NArith ZArith Lia Bool Permutation.
From Verif Require Import Base Json Text TextProofs MatchingRules JsonCompare CompareProofs ContentType Headers Query Http Merge Handles SpecHandles PropHandles.
Import ListNotations.
Open Scope nat_scope.

(** ** Specification *)
(** The calls [calls], each with an index and a value, one after the other, turn the values
    [old] into [new]: every index that was set has the value it was set to last, every other
    one what it had, and gaps are filled with [dflt]. *)
Record assigned {A} (dflt : A) (old : list A) (calls : list (nat * A)) (new : list A) : Prop := {
  as_length : forall k, k < length new <-> k < length old \/ exists i, In i (map fst calls) /\ k <= i;
  as_set : forall pre k x post, calls = pre ++ (k, x) :: post -> ~ In k (map fst post) -> nth_error new k = Some x;
  as_kept : forall k, ~ In k (map fst calls) -> k < length old -> nth_error new k = nth_error old k;
  as_gap : forall k, ~ In k (map fst calls) -> length old <= k < length new -> nth_error new k = Some dflt }.

(** ** Lists *)
Definition put_all {A} (dflt : A) (calls : list (nat * A)) (old : list A) : list A :=
  fold_left (fun l ix => put_at dflt (fst ix) (snd ix) l) calls old.

Lemma put_at_length : forall {A} (d : A) i v l, length (put_at d i v l) = max (S i) (length l).
Proof. intros. unfold put_at. rewrite set_nth_length, app_length, repeat_length. lia. Qed.
Lemma put_at_nth : forall {A} (d : A) i v l k, nth_error (put_at d i v l) k =
  if Nat.eqb k i then Some v else if k <? length l then nth_error l k else if k <? S i then Some d else None.
Proof.
  intros A d i v l k. unfold put_at. destruct (Nat.eqb_spec k i) as [->|N].
  - apply set_nth_same. rewrite app_length, repeat_length. lia.
  - rewrite set_nth_other by congruence. destruct (Nat.ltb_spec k (length l)) as [L|L].
    + apply nth_error_app1. exact L.
    + rewrite nth_error_app2 by exact L. destruct (Nat.ltb_spec k (S i)) as [M|M].
      * rewrite nth_error_repeat by lia. reflexivity.
      * apply nth_error_None. rewrite repeat_length. lia.
Qed.
Lemma nth_error_ext : forall {A} (a b : list A), (forall k, nth_error a k = nth_error b k) -> a = b.
Proof.
  induction a as [|x a IH]; intros [|y b] H; [reflexivity|specialize (H 0); discriminate|specialize (H 0); discriminate|].
  pose proof (H 0) as H0. cbn in H0. injection H0 as ->. f_equal. apply IH. intro k. exact (H (S k)).
Qed.
Lemma put_at_commute : forall {A} (d : A) i v j u l, i <> j -> put_at d i v (put_at d j u l) = put_at d j u (put_at d i v l).
Proof.
  intros A d i v j u l N. apply nth_error_ext. intro k. rewrite !put_at_nth, !put_at_length.
  destruct (Nat.eqb_spec k i), (Nat.eqb_spec k j); subst; try contradiction;
    repeat match goal with |- context [?a <? ?b] => destruct (Nat.ltb_spec a b) end; try reflexivity; lia.
Qed.
Lemma put_all_order : forall {A} (d : A) c c', Permutation c c' -> NoDup (map fst c) -> forall l, put_all d c l = put_all d c' l.
Proof.
  intros A d c c' P. induction P as [|x c c' P IH|x y c|c c1 c2 P1 IH1 P2 IH2]; intros ND l.
  - reflexivity.
  - cbn [map] in ND. inversion ND; subst. unfold put_all in *. cbn [fold_left]. apply IH. assumption.
  - unfold put_all. cbn [fold_left]. rewrite put_at_commute; [reflexivity|]. cbn [map] in ND. inversion ND as [|? ? A1 A2]; subst.
    intro E. apply A1. left. congruence.
  - rewrite IH1 by exact ND. apply IH2. eapply Permutation_NoDup; [apply Permutation_map; exact P1|exact ND].
Qed.
Lemma put_all_assigned : forall {A} (d : A) calls old, assigned d old calls (put_all d calls old).
Proof.
  intros A d calls old. induction calls as [|[i v] c IH] using rev_ind.
  - constructor; cbn; intros.
    + split; [auto|]. intros [H|[i [[] _]]]. exact H.
    + destruct pre; discriminate.
    + reflexivity.
    + lia.
  - unfold put_all in *. rewrite fold_left_app. cbn [fold_left fst snd]. set (l := fold_left _ c old) in *.
    destruct IH as [L ST K G].
    assert (LEN : forall k, k < length (put_at d i v l) <-> k < length old \/ exists j, In j (map fst (c ++ [(i, v)])) /\ k <= j).
    { intro k. rewrite put_at_length, map_app. cbn [map fst]. specialize (L k). split.
      - intro H. destruct (Nat.lt_ge_cases k (length l)) as [X|X].
        + apply L in X. destruct X as [X|[j [I J]]]; [left; exact X|]. right. exists j. split; [apply in_or_app; left; exact I|exact J].
        + right. exists i. split; [apply in_or_app; right; left; reflexivity|lia].
      - intros [X|[j [I J]]]; [assert (k < length l) by (apply L; left; exact X); lia|].
        apply in_app_or in I. destruct I as [I|[<-|[]]]; [|lia].
        assert (k < length l) by (apply L; right; exists j; split; assumption). lia. }
    constructor; [exact LEN| | |].
    + intros pre k x post E NI. rewrite put_at_nth. destruct (Nat.eqb_spec k i) as [->|N].
      * destruct (exists_last (l := (i, x) :: post)) as [q [z Z]]; [discriminate|].
        rewrite Z, app_assoc in E. apply app_inj_tail in E. destruct E as [_ <-].
        destruct post as [|p0 post].
        -- destruct q as [|? [|? ?]]; try discriminate. injection Z as ->. reflexivity.
        -- exfalso. apply NI. destruct q as [|? q]; [discriminate|]. injection Z as _ Z. rewrite Z, map_app. apply in_or_app. right. left. reflexivity.
      * destruct (exists_last (l := (k, x) :: post)) as [q [z Z]]; [discriminate|].
        pose proof E as E0. rewrite Z, app_assoc in E0. apply app_inj_tail in E0. destruct E0 as [E0 <-].
        destruct q as [|q0 q]; [injection Z as -> ->; contradiction|]. injection Z as <- Z. subst post.
        assert (X : nth_error l k = Some x).
        { apply (ST pre k x q); [exact E0|]. intro I. apply NI. rewrite map_app. apply in_or_app. left. exact I. }
        rewrite X. destruct (Nat.ltb_spec k (length l)); [reflexivity|].
        assert (k < length l) by (apply nth_error_Some; congruence). lia.
    + intros k NI Lk. rewrite map_app in NI. cbn [map fst] in NI. rewrite put_at_nth.
      destruct (Nat.eqb_spec k i) as [->|N]; [destruct NI; apply in_or_app; right; left; reflexivity|].
      assert (k < length l) by (apply L; left; exact Lk). destruct (Nat.ltb_spec k (length l)); [|lia].
      apply K; [|exact Lk]. intro I. apply NI. apply in_or_app. left. exact I.
    + intros k NI Lk. rewrite map_app in NI. cbn [map fst] in NI. rewrite put_at_length in Lk. rewrite put_at_nth.
      destruct (Nat.eqb_spec k i) as [->|N]; [destruct NI; apply in_or_app; right; left; reflexivity|].
      destruct (Nat.ltb_spec k (length l)) as [X|X].
      * apply G; [|lia]. intro I. apply NI. apply in_or_app. left. exact I.
      * destruct (Nat.ltb_spec k (S i)); [reflexivity|lia].
Qed.

(** ** Maps *)
Lemma map_put_get : forall {A} (m : list (str * A)) k v j, obj_get j (map_put k v m) = if str_eqb j k then Some v else obj_get j m.
Proof.
  induction m as [|[k' v'] m IH]; intros k v j; cbn [map_put obj_get].
  - destruct (str_eqb_spec j k) as [->|N]; [rewrite ?str_eqb_refl; reflexivity|].
    destruct (str_eqb_spec k j) as [->|M]; [contradiction|reflexivity].
  - destruct (str_eqb_spec k' k) as [->|N]; cbn [obj_get].
    + destruct (str_eqb_spec j k) as [->|N]; [rewrite ?str_eqb_refl; reflexivity|reflexivity].
    + rewrite IH. destruct (str_eqb_spec j k) as [->|M]; [|reflexivity].
      destruct (str_eqb_spec k k') as [->|M]; [contradiction|reflexivity].
Qed.
Lemma map_put_put : forall {A} (m : list (str * A)) k v u, map_put k v (map_put k u m) = map_put k v m.
Proof.
  induction m as [|[k' v'] m IH]; intros k v u; cbn [map_put].
  - rewrite str_eqb_refl. reflexivity.
  - destruct (str_eqb_spec k' k) as [->|N]; cbn [map_put]; [rewrite str_eqb_refl; reflexivity|].
    destruct (str_eqb_spec k' k); [contradiction|]. rewrite IH. reflexivity.
Qed.

(** ** C64: query parameters *)
Definition query_of (v : v4i) : option query_map := match v_payload v with SyncHttp q _ => req_query q | _ => None end.
Definition query_calls (w : world) (name : str) (calls : list (nat * option str)) (v : v4i) : v4i :=
  fold_left (fun v ix => snd (apply_edit w false (EQuery name (fst ix) (snd ix)) v)) calls v.
Definition is_http (v : v4i) : Prop := match v_payload v with SyncHttp _ _ => True | _ => False end.
Definition values_in {A} (name : str) (q : option (list (str * list A))) : list A :=
  match q with Some m => match obj_get name m with Some l => l | None => [] end | None => [] end.

Lemma query_calls_ok : forall w name calls q p v, v_payload v = SyncHttp q p -> calls <> [] ->
  query_calls w name calls v =
  with_payload v (SyncHttp (req_with_query q (Some (map_put name (put_all None calls (values_in name (req_query q)))
                                                     (match req_query q with Some m => m | None => [] end)))) p).
Proof.
  intros w name calls q p v E NE. induction calls as [|[i x] c IH] using rev_ind; [contradiction|].
  unfold query_calls, put_all in *. rewrite !fold_left_app. cbn [fold_left fst snd].
  destruct c as [|c0 c].
  - clear IH. cbn [fold_left apply_edit]. unfold on_http. rewrite E. cbn [snd]. do 3 f_equal.
    unfold update_query_map, values_in. destruct (req_query q); reflexivity.
  - rewrite IH by discriminate. cbn [apply_edit]. unfold on_http. cbn [v_payload with_payload snd].
    unfold with_payload at 1. cbn [v_id v_key v_desc v_states v_extra with_payload]. unfold with_payload. f_equal. f_equal.
    unfold req_with_query. cbn [req_method req_path req_query req_headers req_body req_rules]. f_equal.
    unfold update_query_map. rewrite map_put_get, str_eqb_refl, map_put_put. reflexivity.
Qed.

(** The values of a parameter after any calls, whatever was there before: as [assigned] says,
    with no value in the gaps. All other parameters are as they were. *)
Theorem C64_values_of_a_parameter : forall w name calls v, is_http v -> calls <> [] ->
  let v' := query_calls w name calls v in
  assigned None (values_in name (query_of v)) calls (values_in name (query_of v')) /\
  forall other, other <> name -> values_in other (query_of v') = values_in other (query_of v).
Proof.
  intros w name calls v H NE v'. unfold is_http in H. destruct (v_payload v) as [q p|?|? ?] eqn:E; try contradiction.
  unfold v', query_of. rewrite (query_calls_ok w name calls q p v E NE), E. cbn [with_payload v_payload req_with_query req_query].
  split.
  - unfold values_in at 2. rewrite map_put_get, str_eqb_refl. apply put_all_assigned.
  - intros other N. unfold values_in. rewrite map_put_get. destruct (str_eqb_spec other name); [contradiction|].
    destruct (req_query q); reflexivity.
Qed.
(** Values of different indices can be set in any order: the interaction is the same. *)
Theorem C64_any_order : forall w name calls calls' v,
  Permutation calls calls' -> NoDup (map fst calls) -> query_calls w name calls v = query_calls w name calls' v.
Proof.
  intros w name calls calls' v P ND. destruct calls as [|c calls]; [apply Permutation_nil in P; subst; reflexivity|].
  assert (N : calls' <> []) by (intro X; subst; apply Permutation_sym, Permutation_nil in P; discriminate).
  destruct (v_payload v) as [q p|m|m l] eqn:E.
  - rewrite (query_calls_ok w name (c :: calls) q p v E) by discriminate. rewrite (query_calls_ok w name calls' q p v E N).
    rewrite (put_all_order None _ _ P ND). reflexivity.
  - assert (I : forall cs, query_calls w name cs v = v).
    { induction cs as [|[i x] cs IH]; [reflexivity|]. unfold query_calls in *. cbn [fold_left apply_edit fst snd].
      unfold on_http. rewrite E. exact IH. }
    rewrite !I. reflexivity.
  - assert (I : forall cs, query_calls w name cs v = v).
    { induction cs as [|[i x] cs IH]; [reflexivity|]. unfold query_calls in *. cbn [fold_left apply_edit fst snd].
      unfold on_http. rewrite E. exact IH. }
    rewrite !I. reflexivity.
Qed.
Example C64_example : forall w,
  values_in (S_ "id") (query_of (query_calls w (S_ "id") [(2, Some (S_ "c")); (0, None)] (new_int KHttp (S_ "d")))) = [None; None; Some (S_ "c")].
Proof. reflexivity. Qed.

(** ** C65: headers *)
(** *** Specification *)
Section HeaderSpec.
Variable w : world.
Definition same_header (a b : str) : Prop := to_lower w a = to_lower w b.
(** The values of the header [name], whatever the case of its name. *)
Fixpoint header_vals (name : str) (m : hmap) : list str :=
  match m with
  | [] => []
  | (k, vs) :: m' => if str_eqb (to_lower w k) (to_lower w name) then vs else header_vals name m'
  end.
Definition headers_of (s : side) (v : v4i) : hmap :=
  match v_payload v with
  | SyncHttp q p => match (match s with Request => req_headers q | Response => resp_headers p end) with Some m => m | None => [] end
  | _ => []
  end.
(** A value that is one value: no white space around it and, except for the headers whose
    values are never lists, no comma in it. *)
Definition one_value (name value : str) : Prop :=
  trim w value = value /\ (In (to_lower w name) SINGLE_VALUE_HEADERS \/ ~ In 44%N value).
(** One call: the name as spelled in the call, the index and the value. *)
Record header_call := mkHC { hc_name : str; hc_index : nat; hc_value : str }.
Definition header_calls (s : side) (calls : list header_call) (v : v4i) : v4i :=
  fold_left (fun v c => snd (apply_edit w false (EHeader s (hc_name c) (hc_index c) (hc_value c)) v)) calls v.
Definition is_about (name : str) (c : header_call) : Prop :=
  same_header (hc_name c) name /\ (hc_index c = 0 -> one_value name (hc_value c)).

(** *** Proofs *)
Lemma one_value_parse : forall name n x, same_header n name -> one_value name x -> parse_header w n x = [x].
Proof.
  intros name n x E [T C]. unfold parse_header. rewrite E. destruct (str_in (to_lower w name) SINGLE_VALUE_HEADERS) eqn:I.
  - rewrite T. reflexivity.
  - destruct C as [C|C]; [apply CompareProofs.str_in_iff in C; congruence|].
    rewrite (TextProofs.split_on_none 44%N x C). cbn [map]. rewrite T. reflexivity.
Qed.
(** Where the values go: the name that is there, or else the name of the call. *)
Definition key_for (name : str) (m : hmap) : str := match header_key w m name with Some k => k | None => name end.
Lemma key_for_cons : forall name k vs m, key_for name ((k, vs) :: m) =
  if str_eqb (to_lower w k) (to_lower w name) then k else key_for name m.
Proof. intros. unfold key_for, header_key. cbn [find fst]. destruct (str_eqb (to_lower w k) (to_lower w name)); reflexivity. Qed.
Lemma key_for_same : forall name m, same_header (key_for name m) name.
Proof.
  intros name m. induction m as [|[k vs] m IH]; [reflexivity|]. rewrite key_for_cons.
  destruct (str_eqb_spec (to_lower w k) (to_lower w name)) as [E|N]; [exact E|exact IH].
Qed.
Lemma header_key_none : forall name m, header_key w m name = None -> header_vals name m = [].
Proof.
  intros name m. unfold header_key. induction m as [|[k vs] m IH]; [reflexivity|]. cbn [find fst header_vals].
  destruct (str_eqb (to_lower w k) (to_lower w name)); [discriminate|exact IH].
Qed.
Lemma header_key_some : forall name m k, header_key w m name = Some k -> obj_get k m = Some (header_vals name m).
Proof.
  intros name m k0. unfold header_key. induction m as [|[k vs] m IH]; [discriminate|]. cbn [find fst header_vals obj_get].
  destruct (str_eqb_spec (to_lower w k) (to_lower w name)) as [E|N].
  - intro H. injection H as <-. rewrite str_eqb_refl. reflexivity.
  - intro H. specialize (IH H). destruct (str_eqb_spec k0 k) as [X|X]; [|exact IH]. subst k0. destruct N.
    destruct (find _ m) as [[k1 v1]|] eqn:F; [|discriminate]. injection H as ->. apply find_some in F. destruct F as [_ F]. cbn [fst] in F.
    destruct (str_eqb_spec (to_lower w k) (to_lower w name)); [assumption|discriminate].
Qed.
Lemma header_vals_put : forall n name vs m, header_vals n (map_put (key_for name m) vs m) =
  if str_eqb (to_lower w name) (to_lower w n) then vs else header_vals n m.
Proof.
  intros n name vs. induction m as [|[k us] m IH].
  - cbn [map_put header_vals key_for header_key find]. unfold key_for, header_key. cbn [find]. reflexivity.
  - rewrite key_for_cons. destruct (str_eqb_spec (to_lower w k) (to_lower w name)) as [E|N].
    + cbn [map_put]. rewrite str_eqb_refl. cbn [header_vals]. rewrite E. destruct (str_eqb (to_lower w name) (to_lower w n)); reflexivity.
    + cbn [map_put]. destruct (str_eqb_spec k (key_for name m)) as [X|X].
      * destruct N. rewrite X. apply key_for_same.
      * cbn [header_vals]. rewrite IH. destruct (str_eqb_spec (to_lower w k) (to_lower w n)) as [Y|Y]; [|reflexivity].
        destruct (str_eqb_spec (to_lower w name) (to_lower w n)) as [Z|Z]; [|reflexivity]. destruct N. rewrite Y, Z. reflexivity.
Qed.
Lemma put_at_0 : forall {A} (d x : A) l, put_at d 0 x l = x :: match l with [] => [] | _ :: l' => l' end.
Proof. intros A d x [|a l]; [reflexivity|]. unfold put_at. cbn [length Nat.sub repeat]. rewrite app_nil_r. reflexivity. Qed.
Lemma header_put_ok : forall name h c, is_about name c ->
  header_put w h (hc_name c) (hc_index c) (hc_value c) =
  Some (map_put (key_for (hc_name c) (or_empty h)) (put_at [] (hc_index c) (hc_value c) (header_vals (hc_name c) (or_empty h))) (or_empty h)).
Proof.
  intros name h [n i x] [SH OV]. cbn [hc_name hc_index hc_value] in *. unfold header_put. set (m := or_empty h).
  pose proof (key_for_same n m) as KS. unfold key_for in *. destruct (header_key w m n) as [k|] eqn:K.
  - rewrite (header_key_some _ _ _ K). destruct i as [|i]; [|reflexivity].
    assert (P : parse_header w k x = [x]). { apply (one_value_parse name); [unfold same_header in *; congruence|apply OV; reflexivity]. }
    rewrite P, put_at_0. destruct (header_vals n m); reflexivity.
  - rewrite (header_key_none _ _ K). destruct i as [|i]; [|reflexivity].
    rewrite (one_value_parse name n x SH (OV eq_refl)). reflexivity.
Qed.
Lemma header_vals_same : forall a b m, same_header a b -> header_vals a m = header_vals b m.
Proof. intros a b m E. induction m as [|[k vs] m IH]; [reflexivity|]. cbn [header_vals]. unfold same_header in E. rewrite E, IH. reflexivity. Qed.
Lemma headers_of_step : forall s name c v, is_http v -> is_about name c ->
  let v' := snd (apply_edit w false (EHeader s (hc_name c) (hc_index c) (hc_value c)) v) in
  is_http v' /\
  forall n, header_vals n (headers_of s v') =
    if str_eqb (to_lower w name) (to_lower w n) then put_at [] (hc_index c) (hc_value c) (header_vals name (headers_of s v)) else header_vals n (headers_of s v).
Proof.
  intros s name c v H A v'. unfold is_http in *. destruct (v_payload v) as [q p|?|? ?] eqn:E; try contradiction.
  assert (SH : same_header (hc_name c) name) by apply A.
  split.
  - unfold v'. destruct s; cbn [apply_edit]; unfold on_http; rewrite E; exact I.
  - intro n. unfold v', headers_of. destruct s; cbn [apply_edit]; unfold on_http; rewrite E;
      cbn [snd with_payload v_payload req_with_headers resp_with_headers req_headers resp_headers];
      rewrite (header_put_ok name _ c A), header_vals_put, (header_vals_same _ _ _ SH); unfold same_header in SH; rewrite SH; reflexivity.
Qed.
Definition pair_of (c : header_call) : nat * str := (hc_index c, hc_value c).
Lemma headers_of_calls : forall s name calls v, is_http v -> Forall (is_about name) calls ->
  is_http (header_calls s calls v) /\
  header_vals name (headers_of s (header_calls s calls v)) = put_all [] (map pair_of calls) (header_vals name (headers_of s v)) /\
  forall n, ~ same_header n name -> header_vals n (headers_of s (header_calls s calls v)) = header_vals n (headers_of s v).
Proof.
  intros s name calls. induction calls as [|c calls IH]; intros v H F; [repeat split; auto|].
  inversion F as [|? ? F1 F2]; subst. destruct (headers_of_step s name c v H F1) as [H' V]. unfold header_calls. cbn [fold_left]. fold (header_calls s calls).
  set (v1 := snd (apply_edit w false _ v)) in *. change (fold_left _ calls v1) with (header_calls s calls v1).
  destruct (IH v1 H' F2) as [I1 [I2 I3]]. split; [exact I1|]. split.
  - rewrite I2, V, str_eqb_refl. reflexivity.
  - intros n N. rewrite (I3 n N), V. destruct (str_eqb_spec (to_lower w name) (to_lower w n)) as [X|X]; [destruct N; symmetry; exact X|reflexivity].
Qed.
End HeaderSpec.

(** The values of a header after any calls, whatever was there before and however its name was
    spelled: as [assigned] says, with empty values in the gaps. All other headers are as they
    were, and so are those of the other part. *)
Theorem C65_values_of_a_header : forall w s name calls v, is_http v -> Forall (is_about w name) calls ->
  let v' := header_calls w s calls v in
  assigned [] (header_vals w name (headers_of s v)) (map pair_of calls) (header_vals w name (headers_of s v')) /\
  (forall other, ~ same_header w other name -> header_vals w other (headers_of s v') = header_vals w other (headers_of s v)) /\
  (forall s', s' <> s -> headers_of s' v' = headers_of s' v).
Proof.
  intros w s name calls v H F v'. destruct (headers_of_calls w s name calls v H F) as [_ [V O]]. split; [|split].
  - unfold v'. rewrite V. apply put_all_assigned.
  - exact O.
  - intros s' N. unfold v'. clear V O v'. revert v H. induction F as [|c calls F1 F IH]; intros v H; [reflexivity|].
    destruct (headers_of_step w s name c v H F1) as [H' _]. unfold header_calls. cbn [fold_left].
    set (v1 := snd (apply_edit w false _ v)) in *. change (fold_left _ calls v1) with (header_calls w s calls v1).
    rewrite (IH v1 H'). unfold v1, is_http in *. destruct (v_payload v) as [q p|?|? ?] eqn:E; try contradiction.
    unfold headers_of. destruct s, s'; try contradiction; cbn [apply_edit]; unfold on_http; rewrite E; reflexivity.
Qed.
(** The values can be set in any order, and under any spelling of the name. *)
Theorem C65_any_order : forall w s name calls calls' v, is_http v -> Forall (is_about w name) calls ->
  Permutation calls calls' -> NoDup (map hc_index calls) ->
  forall n, header_vals w n (headers_of s (header_calls w s calls v)) = header_vals w n (headers_of s (header_calls w s calls' v)).
Proof.
  intros w s name calls calls' v H F P ND n. assert (F' : Forall (is_about w name) calls') by (apply (Permutation_Forall P F)).
  destruct (headers_of_calls w s name calls v H F) as [_ [V O]]. destruct (headers_of_calls w s name calls' v H F') as [_ [V' O']].
  destruct (str_eqb_spec (to_lower w n) (to_lower w name)) as [X|X].
  - rewrite !(header_vals_same w n name) by exact X. rewrite V, V'. apply put_all_order; [apply Permutation_map; exact P|].
    rewrite map_map. exact ND.
  - rewrite O, O' by exact X. reflexivity.
Qed.
(** Why the value at index 0 must be one value: several values with commas between them
    replace all values the header had. *)
Theorem C65_why_one_value : forall w s name value v, is_http v -> ~ In (to_lower w name) SINGLE_VALUE_HEADERS -> In 44%N value ->
  header_vals w name (headers_of s (header_calls w s [mkHC name 0 value] v)) = map (trim w) (split_on 44%N value).
Proof.
  intros w s name value v H N C. unfold is_http in H. destruct (v_payload v) as [q p|?|? ?] eqn:E; try contradiction.
  assert (P : forall k, same_header w k name -> parse_header w k value = map (trim w) (split_on 44%N value)).
  { intros k X. unfold parse_header. rewrite X. destruct (str_in (to_lower w name) SINGLE_VALUE_HEADERS) eqn:Y; [|reflexivity].
    apply CompareProofs.str_in_iff in Y. contradiction. }
  assert (L : exists a b l, map (trim w) (split_on 44%N value) = a :: b :: l).
  { apply in_split in C. destruct C as [x [y ->]].
    assert (exists a b l, split_on 44%N (x ++ 44%N :: y) = a :: b :: l) as [a [b [l Q]]].
    { pose proof (TextProofs.join_split 44%N (x ++ 44%N :: y)) as J. pose proof (TextProofs.split_on_nonempty 44%N (x ++ 44%N :: y)) as NE.
      destruct (split_on 44%N (x ++ 44%N :: y)) as [|a [|b l]] eqn:Q; [contradiction| |eauto].
      exfalso. apply (TextProofs.split_on_parts 44%N (x ++ 44%N :: y) a); [rewrite Q; left; reflexivity|].
      cbn [join_with] in J. rewrite J. apply in_or_app. right. left. reflexivity. }
    rewrite Q. cbn [map]. eauto. }
  assert (HP : forall h, header_put w h name 0 value = Some (map_put (key_for w name (or_empty h)) (map (trim w) (split_on 44%N value)) (or_empty h))).
  { intro h. unfold header_put. pose proof (key_for_same w name (or_empty h)) as KS. unfold key_for in *.
    destruct (header_key w (or_empty h) name) as [k|] eqn:K; [|rewrite P by reflexivity; reflexivity].
    rewrite P by exact KS. destruct L as [a [b [l ->]]]. destruct (match obj_get k (or_empty h) with Some l0 => l0 | None => [] end); reflexivity. }
  unfold header_calls, headers_of. cbn [fold_left hc_name hc_index hc_value].
  destruct s; cbn [apply_edit]; unfold on_http; rewrite E; cbn [snd with_payload v_payload req_with_headers resp_with_headers req_headers resp_headers];
    rewrite HP, header_vals_put, str_eqb_refl; reflexivity.
Qed.
(** [pactffi_set_header]: exactly the value given, as it is, and all the others as they were. *)
Theorem C65_set_header : forall w s name value v, is_http v ->
  let v' := snd (apply_edit w false (ESetHeader s name value) v) in
  header_vals w name (headers_of s v') = [value] /\
  forall other, ~ same_header w other name -> header_vals w other (headers_of s v') = header_vals w other (headers_of s v).
Proof.
  intros w s name value v H v'. unfold is_http in H. destruct (v_payload v) as [q p|?|? ?] eqn:E; try contradiction.
  assert (X : forall n, header_vals w n (headers_of s v') = if str_eqb (to_lower w name) (to_lower w n) then [value] else header_vals w n (headers_of s v)).
  { intro n. unfold v', headers_of. destruct s; cbn [apply_edit]; unfold on_http; rewrite E;
      cbn [snd with_payload v_payload req_with_headers resp_with_headers req_headers resp_headers]; unfold set_header;
      fold (key_for w name (or_empty (req_headers q))); fold (key_for w name (or_empty (resp_headers p))); rewrite header_vals_put; reflexivity. }
  split; [rewrite X, str_eqb_refl; reflexivity|]. intros other N. rewrite X.
  destruct (str_eqb_spec (to_lower w name) (to_lower w other)) as [Y|Y]; [destruct N; symmetry; exact Y|reflexivity].
Qed.

Example C65_example : forall w,
  let calls := [mkHC (S_ "x-id") 1 (S_ "b"); mkHC (S_ "X-ID") 0 (S_ "a")] in
  Forall (is_about w (S_ "X-Id")) calls /\
  headers_of Request (header_calls w Request calls (new_int KHttp (S_ "d"))) = [(S_ "x-id", [S_ "a"; S_ "b"])].
Proof.
  intro w. split; [|reflexivity]. apply Forall_cons; [|apply Forall_cons; [|apply Forall_nil]].
  - split; [reflexivity|]. cbn [hc_index]. discriminate.
  - split; [reflexivity|]. intros _. split; [reflexivity|]. right. intros [X|[]]; discriminate X.
Qed.
